(** * Property C130: the STFT classification on matplotlib's spectrogram *)
From Coq Require Import List ZArith Bool Lia Arith Reals Lra.
From Flocq Require Import Core.
From Verif Require Import Base Num NumF64 NumList RealSpec RealStat Stft_model Stft_spec SpecGram_model SpecGram_spec SpecGram_proofs SpecGram_proofs2 SpecGram_proofs3 SpecGram_proofs4 SpecGram_proofs5.
Import ListNotations.
Local Open Scope nat_scope.

Theorem C130_gain_exact : forall Fs find rsl wl thr fd a b d mirror window fo c,
  (0 < Fs)%R -> (forall x, In x rsl -> reading x) -> usable wl window -> c <> 0%R ->
  same_classification (stft_classification (mpl_env Fs find) rsl wl thr fd a b d mirror window None fo)
                      (stft_classification (mpl_env Fs find) (amplified c rsl) wl thr fd a b d mirror window None fo).
Proof. exact stft_gain. Qed.
Print Assumptions C130_gain_exact.

Theorem C130_offset_refuted : exists r r',
  let call x := stft_classification (mpl_env 1 true) x 2 (XFin 1 : XR) (XFin (1/4)%R : XR) (Some 0%Z) (Some 1%Z) None false (Some (ofR [1; 1]%R)) None None in
  call (ofR [0; 2; 4]%R) = Ok r /\ call (raised_by (-3) (ofR [0; 2; 4]%R)) = Ok r' /\ get false (r_wet r) 1 = true /\ get false (r_wet r') 1 = false.
Proof. exact offset_changes_flags. Qed.
Print Assumptions C130_offset_refuted.

(** the dry period found from the standard deviation: neither gain nor offset *)
Theorem C130_dry_period_exact : forall Fs find c d rsl w, c <> 0%R -> (forall x, In x rsl -> reading x) ->
  find_lowest_std_dev_period (mpl_env Fs find) (raised_by d (amplified c rsl)) w = find_lowest_std_dev_period (mpl_env Fs find) rsl w.
Proof.
  intros. unfold raised_by, amplified. rewrite map_map. apply dry_finder_affine; auto.
Qed.
Print Assumptions C130_dry_period_exact.

Theorem C130_window_scale_exact : forall Fs find rsl wl thr fd a b d mirror w fo c,
  (0 < Fs)%R -> (forall x, In x rsl -> reading x) -> usable wl (Some (ofR w)) -> c <> 0%R ->
  stft_classification (mpl_env Fs find) rsl wl thr fd a b d mirror (Some (ofR (map (Rmult c) w))) None fo =
  stft_classification (mpl_env Fs find) rsl wl thr fd a b d mirror (Some (ofR w)) None fo.
Proof. exact stft_window. Qed.
Print Assumptions C130_window_scale_exact.

Theorem C130_sampling_rate_exact : forall Fs find rsl wl thr fd a b d mirror window fo s,
  (0 < Fs)%R -> (forall x, In x rsl -> reading x) -> usable wl window -> (0 < s)%R ->
  same_classification (stft_classification (mpl_env Fs find) rsl wl thr (XFin fd : XR) a b d mirror window None fo)
                      (stft_classification (mpl_env (s * Fs) find) rsl wl thr (XFin (s * fd) : XR) a b d mirror window None fo).
Proof. exact stft_rate. Qed.
Print Assumptions C130_sampling_rate_exact.

Example C130_case_gain : exists r r', three 0 2 4 1 = Ok r /\ three 0 (-4) (-8) 1 = Ok r' /\
  get false (r_wet r) 1 = true /\ get false (r_wet r') 1 = true /\ amplified (-2) (ofR [0; 2; 4]%R) = ofR [0; -4; -8]%R.
Proof.
  destruct (three_scores 0 2 4 1) as (r & Er & _ & Wr); [lra|lra|]. destruct (three_scores 0 (-4) (-8) 1) as (r' & Er' & _ & Wr'); [lra|lra|].
  exists r, r'. rewrite Wr, Wr'. repeat split; auto; [apply Rlt_bool_true; lra|apply Rlt_bool_true; lra|].
  unfold amplified, ofR. cbn [map n_mul XR xmul]. repeat f_equal; ring.
Qed.

(** *** missing samples and reach *)
Theorem C130_missing_sample : forall Fs find N window, 0 < N -> fits N window -> forall rsl thr fd (a b : nat) fo i t,
  N <= length rsl -> i < length rsl -> nget rsl i = (n_nan : XR) -> t < length rsl -> in_window N t i ->
  exists r, stft_classification (mpl_env Fs find) rsl (Z.of_nat N) thr fd (Some (Z.of_nat a)) (Some (Z.of_nat b)) None false window None fo = Ok r /\
    nget (r_P_sum_diff r) t = (n_nan : XR) /\ get false (r_wet r) t = false.
Proof. exact missing_sample. Qed.
Print Assumptions C130_missing_sample.

Theorem C130_reach : forall Fs find N window, 0 < N -> fits N window -> forall rsl rsl' thr fd (a b : nat) fo t,
  N <= length rsl -> length rsl' = length rsl -> t < length rsl ->
  (forall i, i < length rsl -> in_window N t i \/ (exists u, a <= u < b /\ in_window N u i) -> nget rsl' i = nget rsl i) ->
  exists r r', stft_classification (mpl_env Fs find) rsl (Z.of_nat N) thr fd (Some (Z.of_nat a)) (Some (Z.of_nat b)) None false window None fo = Ok r /\
    stft_classification (mpl_env Fs find) rsl' (Z.of_nat N) thr fd (Some (Z.of_nat a)) (Some (Z.of_nat b)) None false window None fo = Ok r' /\
    nget (r_P_sum_diff r') t = nget (r_P_sum_diff r) t /\ get false (r_wet r') t = get false (r_wet r) t.
Proof. exact reach. Qed.
Print Assumptions C130_reach.

(** a window of 4 at step 2 covers samples 1 to 4: two of them come later *)
Example C130_case_window : (forall i, in_window 4 2 i <-> 1 <= i <= 4) /\ (forall i, in_window 5 2 i <-> 0 <= i <= 4).
Proof. unfold in_window. cbn. split; intros i; lia. Qed.
Example C130_case_missing : exists r, stft_classification (mpl_env 1 true) [XFin 1; XNaN; XFin 5; XFin 2 : XR] 2 (XFin 0 : XR) (XFin 0 : XR) (Some 2%Z) (Some 3%Z) None false None None None = Ok r /\
  get false (r_wet r) 0 = false /\ get false (r_wet r) 1 = false.
Proof.
  destruct (C130_missing_sample 1 true 2 None ltac:(lia) I [XFin 1; XNaN; XFin 5; XFin 2 : XR] (XFin 0 : XR) (XFin 0 : XR) 2 3 None 1 0) as (r & E & _ & W0); try (cbn; lia); auto.
  { unfold in_window. cbn. lia. }
  destruct (C130_missing_sample 1 true 2 None ltac:(lia) I [XFin 1; XNaN; XFin 5; XFin 2 : XR] (XFin 0 : XR) (XFin 0 : XR) 2 3 None 1 1) as (r' & E' & _ & W1); try (cbn; lia); auto.
  { unfold in_window. cbn. lia. }
  exists r. rewrite E in E'. injection E' as <-. auto.
Qed.

(** *** the level of the scores *)
Theorem C130_dry_scores_exact : forall (env : stft_env XR) rsl wl thr fd (a b : nat) window Pxx fo Q f c,
  uses env rsl wl window Pxx fo (map ofR Q) f -> Q <> [] -> Forall (fun row => length row = c) Q -> length f = length Q -> c <= length rsl ->
  let s := (length rsl - c) / 2 in
  s <= a -> a < b -> b <= s + c -> (forall row, In row Q -> rsum (slice (a - s) (b - s) row) <> 0%R) ->
  (exists k, k < length f /\ n_leb (nget f k) fd = true) -> (exists k, k < length f /\ n_ltb fd (nget f k) = true) ->
  exists r, stft_classification env rsl wl (XFin thr : XR) fd (Some (Z.of_nat a)) (Some (Z.of_nat b)) None false window Pxx fo = Ok r /\
    n_mean (map (nget (r_P_sum_diff r)) (seq a (b - a))) = (XFin 0 : XR) /\
    ((thr < 0)%R -> exists t, a <= t < b /\ get false (r_wet r) t = true) /\
    ((0 <= thr)%R -> exists t, a <= t < b /\ get false (r_wet r) t = false).
Proof. exact dry_scores. Qed.
Print Assumptions C130_dry_scores_exact.

Example C130_case_dry : exists r, stft_classification (mpl_env 1 true) (ofR [7; 7; 7; 7]%R) 2 (XFin 0 : XR) (XFin 2 : XR) (Some 0%Z) (Some 2%Z) None false None
    (Some (map ofR [[2; 4; 8]; [1; 1; 4]]%R)) (Some (ofR [1; 3]%R)) = Ok r /\
  n_mean (map (nget (r_P_sum_diff r)) (seq 0 2)) = (XFin 0 : XR) /\ exists t, t < 2 /\ get false (r_wet r) t = false.
Proof.
  destruct (C130_dry_scores_exact (mpl_env 1 true) (ofR [7; 7; 7; 7]%R) 2 0 (XFin 2 : XR) 0 2 None (Some (map ofR [[2; 4; 8]; [1; 1; 4]]%R)) (Some (ofR [1; 3]%R)) [[2; 4; 8]; [1; 1; 4]]%R (ofR [1; 3]%R) 3)
    as (r & E & M & _ & W); try (cbn; lia); auto.
  - left. auto.
  - discriminate.
  - intros row [<-|[<-|[]]]; cbn; lra.
  - exists 0. split; [cbn; lia|]. cbn. apply Rle_bool_true. lra.
  - exists 1. split; [cbn; lia|]. cbn. apply Rlt_bool_true. lra.
  - exists r. split; [exact E|]. split; [exact M|]. destruct (W ltac:(lra)) as (t & Ht & Wt). exists t. split; [lia|auto].
Qed.

Theorem C130_one_band_is_dry : forall (O : numops) (S : numsem O) (env : stft_env O) rsl wl thr fd (a b : nat) window Pxx fo P f c,
  uses env rsl wl window Pxx fo P f -> P <> [] -> rect c P -> length f = length P -> c <= length rsl ->
  (forall k, k < length f -> n_leb (nget f k) fd = false) \/ (forall k, k < length f -> n_ltb fd (nget f k) = false) ->
  exists r, stft_classification env rsl wl thr fd (Some (Z.of_nat a)) (Some (Z.of_nat b)) None false window Pxx fo = Ok r /\
    forall t, get false (r_wet r) t = false.
Proof. exact one_band. Qed.
Print Assumptions C130_one_band_is_dry.

Theorem C130_equal_columns_are_dry_exact : forall (env : stft_env XR) rsl wl thr fd (a b : nat) window Pxx fo P f c,
  uses env rsl wl window Pxx fo P f -> P <> [] -> length f = length P -> c <= length rsl -> (0 <= thr)%R ->
  (forall row, In row P -> exists p, reading p /\ row = repeat p c) ->
  exists r, stft_classification env rsl wl (XFin thr : XR) fd (Some (Z.of_nat a)) (Some (Z.of_nat b)) None false window Pxx fo = Ok r /\
    forall t, get false (r_wet r) t = false.
Proof. exact equal_columns. Qed.
Print Assumptions C130_equal_columns_are_dry_exact.

Theorem C130_short_record_is_dry_exact : forall Fs find N rsl thr fd (a b : nat) window fo,
  (0 < Fs)%R -> 0 < N -> usable (Z.of_nat N) window -> (forall x, In x rsl -> reading x) -> 1 <= length rsl <= N -> (0 <= thr)%R ->
  exists r, stft_classification (mpl_env Fs find) rsl (Z.of_nat N) (XFin thr : XR) fd (Some (Z.of_nat a)) (Some (Z.of_nat b)) None false window None fo = Ok r /\
    forall t, get false (r_wet r) t = false.
Proof. exact short_record. Qed.
Print Assumptions C130_short_record_is_dry_exact.

Theorem C130_constant_level_is_dry_exact : forall Fs find N n x thr fd (a b : nat) window fo,
  (0 < Fs)%R -> 0 < N -> usable (Z.of_nat N) window -> 1 <= n -> (0 <= thr)%R ->
  exists r, stft_classification (mpl_env Fs find) (repeat (XFin x : XR) n) (Z.of_nat N) (XFin thr : XR) fd (Some (Z.of_nat a)) (Some (Z.of_nat b)) None false window None fo = Ok r /\
    forall t, get false (r_wet r) t = false.
Proof. exact constant_level. Qed.
Print Assumptions C130_constant_level_is_dry_exact.

(** records that do vary can be wet with such a threshold *)
Example C130_case_wet : exists r r', three 0 2 4 1 = Ok r /\ get false (r_wet r) 1 = true /\ three 1 3 9 1 = Ok r' /\ get false (r_wet r') 1 = false.
Proof.
  destruct (three_scores 0 2 4 1) as (r & Er & _ & Wr); [lra|lra|]. destruct (three_scores 1 3 9 1) as (r' & Er' & _ & Wr'); [lra|lra|].
  exists r, r'. rewrite Wr, Wr'. repeat split; auto; [apply Rlt_bool_true; lra|apply Rlt_bool_false; lra].
Qed.

(** *** the spectrogram itself *)

(** Parseval: times the spacing [Fs / N] of the frequencies, a column adds up to the
    weighted mean square of its samples *)
Theorem C130_total_power_exact : forall Fs find N window rsl w thr fd (a b : nat) fo t, 0 < N -> (0 < Fs)%R -> N <= length rsl ->
  (match window with Some l => l | None => np_hamming (Z.of_nat N) end) = ofR w -> length w = N -> (exists v, In v w /\ v <> 0%R) ->
  (N - 1) / 2 <= t -> t + N <= length rsl + (N - 1) / 2 -> forall v, slice (t - (N - 1) / 2) (t - (N - 1) / 2 + N) rsl = ofR v ->
  exists r, stft_classification (mpl_env Fs find) rsl (Z.of_nat N) thr fd (Some (Z.of_nat a)) (Some (Z.of_nat b)) None false window None fo = Ok r /\
    length (r_Pxx r) = N / 2 + 1 /\
    n_sum (map (fun row => nget row t) (r_Pxx r)) = (XFin (INR N / Fs * (rsum (map (fun x => x * x)%R (map2 Rmult v w)) / rsum (map (fun x => x * x)%R w)))%R : XR).
Proof. exact stft_parseval. Qed.
Print Assumptions C130_total_power_exact.

(** an oscillation with [q] periods per window has all its power in row [q], whose
    frequency is [q * Fs / N] *)
Theorem C130_tone_exact : forall Fs find N q A b n thr fd (a c : nat) fo t, (0 < Fs)%R -> 0 < q -> 2 * q < N -> N <= n ->
  (N - 1) / 2 <= t -> t + N <= n + (N - 1) / 2 ->
  let rsl := ofR (map (fun j => A * cos (2 * PI * INR q * INR j / INR N + b))%R (seq 0 n)) in
  exists r, stft_classification (mpl_env Fs find) rsl (Z.of_nat N) thr fd (Some (Z.of_nat a)) (Some (Z.of_nat c)) None false (Some (ofR (repeat 1%R N))) None fo = Ok r /\
    length (r_Pxx r) = N / 2 + 1 /\ nget (r_f r) q = (XFin (INR q * Fs / INR N)%R : XR) /\
    nget (get [] (r_Pxx r) q) t = (XFin (A * A / 2 * (INR N / Fs))%R : XR) /\
    forall k, k < N / 2 + 1 -> k <> q -> nget (get [] (r_Pxx r) k) t = (XFin 0 : XR).
Proof. exact stft_tone. Qed.
Print Assumptions C130_tone_exact.

(** samples 1 and 3 in a plain window of 2 at 1 Hz: 2 * (1 + 9) / 2 = 10 *)
Example C130_case_total : exists r, stft_classification (mpl_env 1 true) (ofR [1; 3; 5]%R) 2 (XFin 0 : XR) (XFin 0 : XR) (Some 0%Z) (Some 1%Z) None false (Some (ofR [1; 1]%R)) None None = Ok r /\
  n_sum (map (fun row => nget row 0) (r_Pxx r)) = (XFin 10 : XR).
Proof.
  destruct (C130_total_power_exact 1 true 2 (Some (ofR [1; 1]%R)) (ofR [1; 3; 5]%R) [1; 1]%R (XFin 0 : XR) (XFin 0 : XR) 0 1 None 0 ltac:(lia) ltac:(lra) ltac:(cbn; lia) eq_refl eq_refl
    ltac:(exists 1%R; split; [left; reflexivity|lra]) ltac:(cbn; lia) ltac:(cbn; lia) [1; 3]%R eq_refl) as (r & E & _ & S).
  exists r. split; [exact E|]. rewrite S. f_equal. cbn. field.
Qed.
(** a wave of 8 samples per period at one sample per second, read with windows of 16 *)
Example C130_case_tone : exists r, stft_classification (mpl_env 1 true) (ofR (map (fun j => 3 * cos (2 * PI * INR 2 * INR j / INR 16 + 0))%R (seq 0 40))) 16 (XFin 0 : XR) (XFin 0 : XR) (Some 0%Z) (Some 1%Z) None false (Some (ofR (repeat 1%R 16))) None None = Ok r /\
  nget (r_f r) 2 = (XFin (1 / 8) : XR) /\ nget (get [] (r_Pxx r) 2) 20 = (XFin 72 : XR) /\ nget (get [] (r_Pxx r) 3) 20 = (XFin 0 : XR).
Proof.
  destruct (C130_tone_exact 1 true 16 2 3 0 40 (XFin 0 : XR) (XFin 0 : XR) 0 1 None 20) as (r & E & _ & F & P & Z); try lia; try lra; try (cbn; lia).
  exists r. split; [exact E|]. rewrite F, P, (Z 3) by (cbn; lia). repeat split; f_equal; cbn; field.
Qed.

(** without [window] the documented Hamming window is used *)
Theorem C130_default_window : forall Fs find N rsl thr fd a b d mirror Pxx fo, 2 <= N ->
  stft_classification (mpl_env Fs find) rsl (Z.of_nat N) thr fd a b d mirror None Pxx fo =
  stft_classification (mpl_env Fs find) rsl (Z.of_nat N) thr fd a b d mirror (Some (ofR (map (fun n => 0.54 - 0.46 * cos (2 * PI * INR n / (INR N - 1)))%R (seq 0 N)))) Pxx fo.
Proof. exact default_window. Qed.
Print Assumptions C130_default_window.
Example C130_case_hamming : map (fun n => 0.54 - 0.46 * cos (2 * PI * INR n / (INR 3 - 1)))%R (seq 0 3) = [0.08; 1; 0.08]%R.
Proof.
  cbn [seq map INR]. replace (2 * PI * 0 / (1 + 1 + 1 - 1))%R with 0%R by field. replace (2 * PI * 1 / (1 + 1 + 1 - 1))%R with PI by field. replace (2 * PI * (1 + 1) / (1 + 1 + 1 - 1))%R with (2 * PI)%R by field.
  rewrite cos_0, cos_PI, cos_2PI. repeat f_equal; lra.
Qed.
