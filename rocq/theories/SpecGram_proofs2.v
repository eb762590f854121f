(** * Gain, sampling frequency and scale of the window function *)
From Coq Require Import List ZArith Bool Lia Arith Reals Lra.
From Flocq Require Import Core.
From Verif Require Import Base Num NumList NpOps RealSpec RealStat MinMax_model Stft_model Stft_spec Stft_proofs SpecGram_model SpecGram_spec SpecGram_proofs.
Import ListNotations.
Local Open Scope nat_scope.

Local Notation times lam := (fun x : XR => n_mul (XFin lam : XR) x).

(** ** segments *)
Lemma segment_cases (v : list XR) : (forall x, In x v -> reading x) ->
  (exists j, j < length v /\ nget v j = (n_nan : XR)) \/ exists r, v = ofR r.
Proof.
  induction v as [|x v IH]; intros H; [right; exists []; reflexivity|].
  destruct (H x (or_introl eq_refl)) as [->|[r ->]]; [left; exists 0; cbn; split; [lia|reflexivity]|].
  destruct IH as [(j & Hj & E)|[rs ->]]; [intros; apply H; right; auto| |].
  - left. exists (S j). cbn [length]. split; [lia|exact E].
  - right. exists (r :: rs). reflexivity.
Qed.

Section Power.
Variables (Fs : R) (w : list R) (N : nat).
Hypotheses (HF : (0 < Fs)%R) (HW : (0 < norm2 w)%R) (Lw : length w = N).

Lemma psd_cases v k : (forall x, In x v -> reading x) -> length v = N ->
  psd Fs (ofR w) v N k = (n_nan : XR) \/ exists r, v = ofR r /\ psd Fs (ofR w) v N k = (XFin (rpsd Fs w r N k) : XR).
Proof using HF HW Lw.
  intros H L. destruct (segment_cases v H) as [(j & Hj & E)|[r ->]].
  - left. apply psd_nan with (j := j); rewrite ?ofR_length; auto. lia.
  - right. exists r. split; auto. rewrite ofR_length in L. apply psd_R; auto.
Qed.
Lemma psd_reading v k : (forall x, In x v -> reading x) -> length v = N -> reading (psd Fs (ofR w) v N k).
Proof using HF HW Lw. intros H L. destruct (psd_cases v k H L) as [->|(r & _ & ->)]; [left; auto|right; eauto]. Qed.

Lemma nget_map_times c (v : list XR) j : j < length v -> nget (map (times c) v) j = times c (nget v j).
Proof using. intros. unfold nget. rewrite get_map with (d := (n_nan : XR)) by auto. reflexivity. Qed.

Lemma map2_scaled_l c v u : map2 Rmult (map (Rmult c) v) u = map (Rmult c) (map2 Rmult v u).
Proof using. unfold map2. revert u. induction v as [|x v IH]; intros [|y u]; cbn; auto. f_equal; [ring|apply IH]. Qed.
Lemma map2_scaled_r c v u : map2 Rmult v (map (Rmult c) u) = map (Rmult c) (map2 Rmult v u).
Proof using. unfold map2. revert u. induction v as [|x v IH]; intros [|y u]; cbn; auto. f_equal; [ring|apply IH]. Qed.
Lemma fsum_scaled trig c u k : length u = N -> fsum trig N (map (Rmult c) u) k = (c * fsum trig N u k)%R.
Proof using Lw.
  intros L. unfold fsum. rewrite <- rsum_scaled, map_map. f_equal. apply map_ext_in. intros j Hj. apply in_seq in Hj.
  unfold rget. rewrite get_map with (d := 0%R) by lia. ring.
Qed.
Lemma rpower_scaled_l c v k : length v = N -> rpower w (map (Rmult c) v) N k = (c * c * rpower w v N k)%R.
Proof using Lw. intros L. unfold rpower. rewrite map2_scaled_l, !fsum_scaled by (rewrite map2_length; lia). ring. Qed.
Lemma rpower_scaled_r c v k : length v = N -> rpower (map (Rmult c) w) v N k = (c * c * rpower w v N k)%R.
Proof using Lw. intros L. unfold rpower. rewrite map2_scaled_r, !fsum_scaled by (rewrite map2_length; lia). ring. Qed.
Lemma norm2_scaled c (u : list R) : norm2 (map (Rmult c) u) = (c * c * norm2 u)%R.
Proof using. unfold norm2. rewrite <- rsum_scaled, !map_map. f_equal. apply map_ext. intros. ring. Qed.

Lemma psd_amplified c v k : (forall x, In x v -> reading x) -> length v = N ->
  psd Fs (ofR w) (map (times c) v) N k = times (c * c)%R (psd Fs (ofR w) v N k).
Proof using HF HW Lw.
  intros H L. destruct (segment_cases v H) as [(j & Hj & E)|[r ->]].
  - rewrite (psd_nan Fs (ofR w) v N k j), (psd_nan Fs (ofR w) (map (times c) v) N k j); rewrite ?ofR_length, ?map_length; auto; try lia.
    rewrite nget_map_times, E by lia. reflexivity.
  - rewrite ofR_length in L. rewrite map_scaled_R, !psd_R by (rewrite ?map_length; auto). rewrite times_fin. f_equal.
    unfold rpsd. rewrite rpower_scaled_l by auto. unfold Rdiv. ring.
Qed.
Lemma psd_window c v k : c <> 0%R -> (forall x, In x v -> reading x) -> length v = N ->
  psd Fs (ofR (map (Rmult c) w)) v N k = psd Fs (ofR w) v N k.
Proof using HF HW Lw.
  intros C H L. destruct (segment_cases v H) as [(j & Hj & E)|[r ->]].
  - rewrite (psd_nan Fs (ofR w) v N k j), (psd_nan Fs (ofR (map (Rmult c) w)) v N k j); rewrite ?ofR_length, ?map_length; auto; lia.
  - rewrite ofR_length in L. assert (0 < c * c)%R by nra.
    rewrite !psd_R by (rewrite ?map_length, ?norm2_scaled; auto; apply Rmult_lt_0_compat; auto). f_equal.
    unfold rpsd. rewrite rpower_scaled_r, norm2_scaled by auto. field. repeat split; lra.
Qed.
Lemma psd_rate s v k : (0 < s)%R -> (forall x, In x v -> reading x) -> length v = N ->
  psd (s * Fs) (ofR w) v N k = times (/ s)%R (psd Fs (ofR w) v N k).
Proof using HF HW Lw.
  intros Hs H L. destruct (segment_cases v H) as [(j & Hj & E)|[r ->]].
  - rewrite (psd_nan Fs (ofR w) v N k j), (psd_nan (s * Fs) (ofR w) v N k j); rewrite ?ofR_length; auto; lia.
  - rewrite ofR_length in L. rewrite !psd_R by (auto; apply Rmult_lt_0_compat; auto). rewrite times_fin. f_equal.
    unfold rpsd. field. repeat split; lra.
Qed.
End Power.

(** ** the spectrogram *)
Lemma pad_readings (x : list XR) n y : (forall z, In z x -> reading z) -> In y (x ++ repeat zero n) -> reading y.
Proof. intros H Hy. apply in_app_or in Hy as [Hy|Hy]; auto. apply repeat_spec in Hy. right. exists 0%R. exact Hy. Qed.
Lemma segment_readings (x : list XR) n s e y : (forall z, In z x -> reading z) -> In y (slice s e (x ++ repeat zero n)) -> reading y.
Proof. intros H Hy. eapply pad_readings; eauto. eapply in_slice; eauto. Qed.
Lemma pad_length (x : list XR) N : length (x ++ repeat zero (N - length x)) = Nat.max N (length x).
Proof. rewrite app_length, repeat_length. lia. Qed.

(** all rows of a spectrogram by a function of the segment *)
Definition grid_of (g : list XR -> nat -> XR) (x : list XR) (N : nat) : list (list XR) :=
  let p := x ++ repeat zero (N - length x) in
  map (fun k => map (fun i => g (slice i (i + N) p) k) (seq 0 (length p - N + 1))) (seq 0 (N / 2 + 1)).

Lemma grid_readings g x N : (forall z, In z x -> reading z) ->
  (forall v k, (forall y, In y v -> reading y) -> length v = N -> reading (g v k)) -> readings (grid_of g x N).
Proof.
  intros H G row Hr y Hy. unfold grid_of in Hr. apply in_map_iff in Hr as (k & <- & _). apply in_map_iff in Hy as (i & <- & Hi). apply in_seq in Hi.
  apply G; [intros z Hz; eapply segment_readings; eauto|]. rewrite slice_length; [lia|]. rewrite pad_length in *. lia.
Qed.
Lemma grid_scaled g g' x N lam : (forall z, In z x -> reading z) ->
  (forall v k, (forall y, In y v -> reading y) -> length v = N -> g' v k = times lam (g v k)) ->
  grid_of g' x N = map (map (times lam)) (grid_of g x N).
Proof.
  intros H G. unfold grid_of. rewrite map_map. apply map_ext. intros k. rewrite map_map. apply map_ext_in. intros i Hi. apply in_seq in Hi.
  apply G; [intros z Hz; eapply segment_readings; eauto|]. rewrite slice_length; [lia|]. rewrite pad_length in *. lia.
Qed.
Lemma grid_amplified g x N c : grid_of g (amplified c x) N = grid_of (fun v => g (map (times c) v)) x N.
Proof.
  unfold grid_of, amplified. rewrite map_length.
  assert (E : map (fun y => n_mul (XFin c : XR) y) x ++ repeat (zero : XR) (N - length x) = map (times c) (x ++ repeat zero (N - length x))).
  { rewrite map_app, map_repeat'. f_equal. f_equal. cbn. f_equal. ring. }
  rewrite E, map_length. apply map_ext. intros k. apply map_ext. intros i. rewrite slice_map. reflexivity.
Qed.

Lemma specgram_grid Fs x NFFT window : mpl_specgram Fs x NFFT window =
  if (NFFT <=? 0)%Z then Err ValueError else if negb (length window =? Z.to_nat NFFT) then Err ValueError
  else Ok (grid_of (fun v => psd Fs window v (Z.to_nat NFFT)) x (Z.to_nat NFFT), map (fun k => (XFin (INR k * Fs / INR (Z.to_nat NFFT))%R : XR)) (seq 0 (Z.to_nat NFFT / 2 + 1))).
Proof. reflexivity. Qed.

(** the window function a call uses *)
Definition nfft (wl : Z) (mirror : bool) : Z := if mirror then if (wl mod 2 =? 0)%Z then wl else (wl + 1)%Z else wl.
Lemma nfft_pos wl mirror : (0 < nfft wl mirror)%Z -> (0 < wl)%Z.
Proof.
  unfold nfft. destruct mirror; auto. destruct (Z.eqb_spec (wl mod 2) 0) as [E|E]; auto. intros H.
  destruct (Z.eq_dec wl 0) as [->|]; [exfalso; apply E; reflexivity|lia].
Qed.
Lemma spectrogram_mpl Fs find rsl wl mirror window fo : spectrogram (mpl_env Fs find) rsl wl mirror window None fo =
  do p <- mpl_specgram Fs rsl (nfft wl mirror) (match window with None => np_hamming wl | Some l => l end); Ok (fst p, snd p, Some (nfft wl mirror)).
Proof. reflexivity. Qed.

Lemma hamming_pos M n : (0 < hamming_at M n)%R.
Proof. unfold hamming_at. destruct (M =? 1); [lra|]. pose proof (COS_bound (PI * (1 - INR M + 2 * INR n) / (INR M - 1))). lra. Qed.
Lemma np_hamming_R M : np_hamming M = ofR (map (hamming_at (Z.to_nat M)) (seq 0 (Z.to_nat M))).
Proof. unfold np_hamming, ofR. rewrite map_map. reflexivity. Qed.

Lemma weights_usable wl window : usable wl window -> exists w, (match window with None => np_hamming wl | Some l => l end) = ofR w /\
  (Z.of_nat (length w) = Z.max 0 wl) /\ ((0 < wl)%Z -> (0 < norm2 w)%R).
Proof.
  destruct window as [l|]; cbn [usable].
  - intros (w & -> & L & NZ). exists w. split; auto. split; [lia|]. intros _. apply norm2_pos; auto.
  - intros _. eexists. split; [apply np_hamming_R|]. split; [rewrite map_length, seq_length; lia|]. intros P. apply norm2_pos.
    exists (hamming_at (Z.to_nat wl) 0). split; [|pose proof (hamming_pos (Z.to_nat wl) 0); lra]. apply in_map_iff. exists 0. split; auto. apply in_seq. lia.
Qed.

(** the two spectrograms are compared by comparing segments *)
Lemma specgram_compare lam Fs Fs' x x' wl mirror w l' fd fd' :
  let N := Z.to_nat (nfft wl mirror) in
  (0 < Fs)%R -> length x' = length x -> (forall z, In z x -> reading z) -> Z.of_nat (length w) = Z.max 0 wl -> ((0 < wl)%Z -> (0 < norm2 w)%R) ->
  length l' = length w ->
  ((0 < norm2 w)%R -> length w = N -> grid_of (fun v => psd Fs' l' v N) x' N = map (map (times lam)) (grid_of (fun v => psd Fs (ofR w) v N) x N)) ->
  (forall k, (0 < N)%nat -> n_leb (XFin (INR k * Fs' / INR N)%R : XR) fd' = n_leb (XFin (INR k * Fs / INR N)%R : XR) fd /\
             n_ltb fd' (XFin (INR k * Fs' / INR N)%R : XR) = n_ltb fd (XFin (INR k * Fs / INR N)%R : XR)) ->
  match (do p <- mpl_specgram Fs x (nfft wl mirror) (ofR w); Ok (fst p, snd p, Some (nfft wl mirror))),
        (do p <- mpl_specgram Fs' x' (nfft wl mirror) l'; Ok (fst p, snd p, Some (nfft wl mirror))) with
  | Ok (P, f, M), Ok (P', f', M') => readings P /\ P' = map (map (times lam)) P /\ (M = None <-> M' = None) /\
      map (fun y => n_leb y fd') f' = map (fun y => n_leb y fd) f /\ map (fun y => n_ltb fd' y) f' = map (fun y => n_ltb fd y) f
  | Err e, Err e' => e' = e
  | _, _ => False
  end.
Proof.
  intros N HF Lx H Lw HW Ll G Fq. rewrite !specgram_grid. fold N. rewrite Ll, ofR_length.
  destruct (Z.leb_spec (nfft wl mirror) 0) as [Hn|Hn]; [reflexivity|].
  destruct (Nat.eqb_spec (length w) N) as [E|E]; cbn [negb bind fst snd]; [|reflexivity].
  assert (WP : (0 < wl)%Z) by (apply (nfft_pos wl mirror); auto).
  assert (NP : 0 < N) by lia. specialize (HW WP). split; [|split; [|split; [tauto|split]]].
  - apply grid_readings; auto. intros v k Hv Lv. apply psd_reading; auto.
  - apply G; auto.
  - rewrite !map_map. apply map_ext. intros k. apply Fq; auto.
  - rewrite !map_map. apply map_ext. intros k. apply Fq; auto.
Qed.

(** ** the dry period found by the standard deviation *)
Definition affine (c d : R) (x : XR) : XR := n_add (n_mul (XFin c : XR) x) (XFin d : XR).

Lemma affine_ofR c d r : map (affine c d) (ofR r) = ofR (map (fun x => c * x + d)%R r).
Proof. unfold ofR. rewrite !map_map. reflexivity. Qed.
Lemma rsum_affine c d r : rsum (map (fun x => c * x + d)%R r) = (c * rsum r + INR (length r) * d)%R.
Proof. induction r as [|x r IH]; [cbn; ring|]. cbn [map rsum fold_right length]. fold (rsum (map (fun x => c * x + d)%R r)) (rsum r). rewrite IH, S_INR. ring. Qed.
Lemma std_R r : (1 < length r)%nat ->
  sample_std (ofR r) = (XFin (sqrt (rsum (map (fun x => (x - rmean r) * (x - rmean r)) r) / (INR (length r) - 1)))%R : XR).
Proof.
  intros L. unfold sample_std. rewrite ofR_length. destruct (Nat.leb_spec (length r) 1); [lia|].
  assert (NE : r <> []) by (destruct r; [cbn in L; lia|discriminate]). rewrite n_mean_ofR by auto.
  assert (E : map (fun x => n_mul (n_sub x (XFin (rmean r) : XR)) (n_sub x (XFin (rmean r) : XR))) (ofR r) = ofR (map (fun x => (x - rmean r) * (x - rmean r))%R r)).
  { unfold ofR. rewrite !map_map. apply map_ext. intros. reflexivity. }
  rewrite E, n_sum_ofR. cbn [n_ofZ n_div n_sqrt XR xdiv].
  assert (I : IZR (Z.of_nat (length r) - 1) = (INR (length r) - 1)%R) by (rewrite minus_IZR, <- INR_IZR_INZ; reflexivity).
  rewrite I. assert (1 < INR (length r))%R by (apply (lt_INR 1); auto). rewrite Req_bool_false by lra. cbn [xsqrt].
  assert (Q : (0 <= rsum (map (fun x => (x - rmean r) * (x - rmean r)) r))%R).
  { clear. generalize (rmean r). intros m. induction r as [|x r IH]; [cbn; lra|].
    change (0 <= (x - m) * (x - m) + rsum (map (fun x => (x - m) * (x - m)) r))%R. pose proof (Rle_0_sqr (x - m)) as Q. unfold Rsqr in Q. lra. }
  rewrite Rlt_bool_false; auto. apply Rmult_le_pos; auto. apply Rlt_le, Rinv_0_lt_compat. lra.
Qed.
Lemma std_affine c d r : sample_std (map (affine c d) (ofR r)) = times (Rabs c) (sample_std (ofR r)).
Proof.
  destruct (Nat.le_gt_cases (length r) 1) as [L|L].
  - unfold sample_std. rewrite map_length, ofR_length. destruct (Nat.leb_spec (length r) 1); [reflexivity|lia].
  - rewrite affine_ofR, !std_R by (rewrite ?map_length; auto). rewrite times_fin, map_length, map_map. f_equal.
    assert (P : (0 < INR (length r))%R) by (apply lt_0_INR; lia). assert (1 < INR (length r))%R by (apply (lt_INR 1); auto).
    assert (M : rmean (map (fun x => c * x + d)%R r) = (c * rmean r + d)%R) by (unfold rmean; rewrite rsum_affine, map_length; field; lra).
    rewrite M. rewrite <- sqrt_Rsqr_abs, <- sqrt_mult_alt by (apply Rle_0_sqr). f_equal. unfold Rsqr.
    replace (map (fun x => (c * x + d - (c * rmean r + d)) * (c * x + d - (c * rmean r + d)))%R r) with (map (Rmult (c * c)) (map (fun x => (x - rmean r) * (x - rmean r))%R r)).
    { rewrite rsum_scaled. unfold Rdiv. ring. }
    rewrite map_map. apply map_ext. intros. ring.
Qed.

Lemma affine_nan c d x : reading x -> n_isnan (affine c d x) = n_isnan x.
Proof. intros [->|[r ->]]; reflexivity. Qed.
Lemma existsb_affine c d l : (forall x, In x l -> reading x) -> existsb n_isnan (map (affine c d) l) = existsb n_isnan l.
Proof. induction l; intros H; [reflexivity|]. cbn [map existsb]. rewrite affine_nan, IHl; auto; intros; apply H; cbn; auto. Qed.
Lemma no_nan_R (l : list XR) : (forall x, In x l -> reading x) -> existsb n_isnan l = false -> exists r, l = ofR r.
Proof.
  intros H E. apply finite_ofR. intros x Hx. destruct (H x Hx) as [->|[r ->]]; [|auto].
  assert (existsb n_isnan l = true) by (apply existsb_exists; exists (n_nan : XR); auto). congruence.
Qed.

Lemma rolling_affine Fs find c d w rsl : (forall x, In x rsl -> reading x) ->
  rolling_std (mpl_env Fs find) w (map (affine c d) rsl) = map (times (Rabs c)) (rolling_std (mpl_env Fs find) w rsl).
Proof.
  intros H. unfold rolling_std. rewrite map_map, map_length. apply map_ext_in. intros i Hi. cbn [rstd mpl_env]. rewrite !slice_map.
  assert (S : forall x, In x (slice (i + 1 - w) (i + 1) rsl) -> reading x) by (intros x Hx; apply H; eapply in_slice; eauto).
  rewrite existsb_affine by auto. destruct (i + 1 <? w); cbn [orb]; [reflexivity|].
  destruct (existsb n_isnan (slice (i + 1 - w) (i + 1) rsl)) eqn:E; [reflexivity|]. destruct (no_nan_R _ S E) as [r ->]. apply std_affine.
Qed.
Lemma rolling_readings Fs find w rsl : (forall x, In x rsl -> reading x) -> forall y, In y (rolling_std (mpl_env Fs find) w rsl) -> reading y.
Proof.
  intros H y Hy. unfold rolling_std in Hy. apply in_map_iff in Hy as (i & <- & _). cbn [rstd mpl_env].
  assert (S : forall x, In x (slice (i + 1 - w) (i + 1) rsl) -> reading x) by (intros x Hx; apply H; eapply in_slice; eauto).
  destruct (i + 1 <? w); cbn [orb]; [left; reflexivity|]. destruct (existsb n_isnan _) eqn:E; [left; reflexivity|]. destruct (no_nan_R _ S E) as [r ->].
  destruct (Nat.le_gt_cases (length r) 1) as [L|L]; [|rewrite std_R by auto; right; eauto].
  left. unfold sample_std. rewrite ofR_length. destruct (Nat.leb_spec (length r) 1); [reflexivity|lia].
Qed.

Lemma np_fold_times s (l : list XR) : (0 < s)%R -> forall x, reading x -> (forall y, In y l -> reading y) ->
  np_fold n_ltb (times s x) (map (times s) l) = times s (np_fold n_ltb x l) /\ reading (np_fold n_ltb x l).
Proof.
  intros Hs. induction l as [|y l IH]; intros x Rx H; [split; [reflexivity|exact Rx]|].
  assert (Ry : reading y) by (apply H; left; auto). assert (Hl : forall z, In z l -> reading z) by (intros; apply H; right; auto).
  unfold np_fold in *. cbn [map fold_left]. rewrite !isnan_times by auto.
  destruct (n_isnan x); [apply IH; auto|]. destruct (n_isnan y); [apply IH; auto|].
  assert (LT : n_ltb (times s y) (times s x) = n_ltb y x).
  { destruct Rx as [->|[a ->]], Ry as [->|[b ->]]; try reflexivity. cbn.
    destruct (Rlt_bool_spec b a) as [Q|Q]; [rewrite Rlt_bool_true by nra; auto|rewrite Rlt_bool_false by nra; auto]. }
  rewrite LT. destruct (n_ltb y x); apply IH; auto.
Qed.
Lemma eqb_times s (x y : XR) : (0 < s)%R -> reading x -> reading y -> n_eqb (times s x) (times s y) = n_eqb x y.
Proof.
  intros Hs [->|[a ->]] [->|[b ->]]; try reflexivity. cbn.
  destruct (Req_bool_spec a b) as [->|Q]; [apply Req_bool_true; auto|apply Req_bool_false]. intros E. apply Q. nra.
Qed.
Lemma nanmin_times s l : (0 < s)%R -> (forall y, In y l -> reading y) -> nanmin (map (times s) l) = times s (nanmin l) /\ reading (nanmin l).
Proof.
  intros Hs H. unfold nanmin. rewrite present_scaled by auto.
  assert (HF : forall y, In y (filter (fun x => negb (n_isnan x)) l) -> reading y) by (intros y Hy; apply filter_In in Hy as [Hy _]; auto).
  destruct (filter (fun x => negb (n_isnan x)) l) as [|x t]; cbn [map]; [split; [reflexivity|left; reflexivity]|].
  apply np_fold_times; auto; [apply HF; left; auto|intros; apply HF; right; auto].
Qed.

Theorem dry_finder_affine Fs find c d rsl w : c <> 0%R -> (forall x, In x rsl -> reading x) ->
  find_lowest_std_dev_period (mpl_env Fs find) (map (affine c d) rsl) w = find_lowest_std_dev_period (mpl_env Fs find) rsl w.
Proof.
  intros C H. unfold find_lowest_std_dev_period. destruct (w <? 0)%Z; [reflexivity|]. destruct find; cbn [has_find mpl_env negb]; [|reflexivity].
  fold (mpl_env Fs true). rewrite rolling_affine by auto. pose proof (rolling_readings Fs true (Z.to_nat w) rsl H) as RR.
  set (l := rolling_std _ _ rsl) in *. assert (A : (0 < Rabs c)%R) by (apply Rabs_pos_lt; auto).
  destruct (nanmin_times (Rabs c) l A RR) as [-> RN]. rewrite map_map.
  assert (E : map (fun x => n_eqb (times (Rabs c) x) (times (Rabs c) (nanmin l))) l = map (fun x => n_eqb x (nanmin l)) l).
  { apply map_ext_in. intros x Hx. apply eqb_times; auto. }
  rewrite E. reflexivity.
Qed.

Lemma amplified_affine c l : (forall x, In x l -> reading x) -> amplified c l = map (affine c 0) l.
Proof. intros H. apply map_ext_in. intros x Hx. unfold affine. destruct (H x Hx) as [->|[r ->]]; [reflexivity|]. cbn. f_equal. ring. Qed.

(** ** the three theorems *)
Theorem stft_gain Fs find rsl wl thr fd a b d mirror window fo c : (0 < Fs)%R -> (forall x, In x rsl -> reading x) -> usable wl window -> c <> 0%R ->
  same_classification (stft_classification (mpl_env Fs find) rsl wl thr fd a b d mirror window None fo)
                      (stft_classification (mpl_env Fs find) (amplified c rsl) wl thr fd a b d mirror window None fo).
Proof.
  intros HF H U C. destruct (weights_usable wl window U) as (w & EW & Lw & HW).
  apply stft_scaled with (lam := (c * c)%R); [nra|unfold amplified; apply map_length| |].
  - rewrite !spectrogram_mpl, !EW. apply specgram_compare; auto; [unfold amplified; apply map_length|apply ofR_length|].
    intros P L. rewrite grid_amplified. apply grid_scaled; auto. intros v k Hv Lv. apply psd_amplified; auto.
  - unfold dry_period. destruct a, b, d; auto. rewrite amplified_affine by auto. apply dry_finder_affine; auto.
Qed.

Lemma times_one_grid P : readings P -> map (map (times 1)) P = P.
Proof.
  intros R. rewrite <- (map_id P) at 2. apply map_ext_in. intros row Hr. rewrite <- (map_id row) at 2. apply map_ext_in. intros x Hx.
  destruct (R row Hr x Hx) as [->|[r ->]]; [reflexivity|]. cbn. f_equal. ring.
Qed.

Theorem stft_window Fs find rsl wl thr fd a b d mirror w fo c : (0 < Fs)%R -> (forall x, In x rsl -> reading x) -> usable wl (Some (ofR w)) -> c <> 0%R ->
  stft_classification (mpl_env Fs find) rsl wl thr fd a b d mirror (Some (ofR (map (Rmult c) w))) None fo =
  stft_classification (mpl_env Fs find) rsl wl thr fd a b d mirror (Some (ofR w)) None fo.
Proof.
  intros HF H U C. destruct (weights_usable wl _ U) as (w' & EW & Lw & HW).
  assert (w' = w). { clear - EW. unfold ofR in EW. revert w' EW. induction w as [|x w IH]; intros [|y v] E; cbn in E; try discriminate; auto. injection E as -> E. f_equal. apply IH; auto. }
  subst w'. unfold stft_classification. rewrite !spectrogram_mpl, !specgram_grid, !ofR_length, map_length.
  destruct (Z.leb_spec (nfft wl mirror) 0) as [Hn|Hn]; [reflexivity|].
  destruct (Nat.eqb_spec (length w) (Z.to_nat (nfft wl mirror))) as [E|E]; cbn [negb]; [|reflexivity].
  assert (WP : (0 < wl)%Z) by (apply (nfft_pos wl mirror); auto). specialize (HW WP).
  rewrite (grid_scaled (fun v => psd Fs (ofR w) v (Z.to_nat (nfft wl mirror))) (fun v => psd Fs (ofR (map (Rmult c) w)) v (Z.to_nat (nfft wl mirror))) rsl (Z.to_nat (nfft wl mirror)) 1).
  - rewrite times_one_grid; [reflexivity|]. apply grid_readings; auto. intros v k Hv Lv. apply psd_reading; auto.
  - auto.
  - intros v k Hv Lv. rewrite psd_window by auto. destruct (psd_reading Fs w _ HF HW E v k Hv Lv) as [->|[r ->]]; [reflexivity|]. cbn. f_equal. ring.
Qed.

Theorem stft_rate Fs find rsl wl thr fd a b d mirror window fo s : (0 < Fs)%R -> (forall x, In x rsl -> reading x) -> usable wl window -> (0 < s)%R ->
  same_classification (stft_classification (mpl_env Fs find) rsl wl thr (XFin fd : XR) a b d mirror window None fo)
                      (stft_classification (mpl_env (s * Fs) find) rsl wl thr (XFin (s * fd) : XR) a b d mirror window None fo).
Proof.
  intros HF H U Hs. destruct (weights_usable wl window U) as (w & EW & Lw & HW).
  apply stft_scaled with (lam := (/ s)%R); [apply Rinv_0_lt_compat; auto|reflexivity| |reflexivity].
  rewrite !spectrogram_mpl, !EW. apply specgram_compare; auto; [apply ofR_length| |].
  - intros P L. apply grid_scaled; auto. intros v k Hv Lv. apply psd_rate; auto.
  - intros k NP. set (N := Z.to_nat (nfft wl mirror)) in *. assert (0 < INR N)%R by (apply lt_0_INR; auto).
    replace (INR k * (s * Fs) / INR N)%R with (s * (INR k * Fs / INR N))%R by (field; lra). generalize (INR k * Fs / INR N)%R. intros q. cbn. split.
    + destruct (Rle_bool_spec q fd); [apply Rle_bool_true; nra|apply Rle_bool_false; nra].
    + destruct (Rlt_bool_spec fd q); [apply Rlt_bool_true; nra|apply Rlt_bool_false; nra].
Qed.
