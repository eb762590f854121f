(** * Missing samples, reach of a sample, and the level of the scores *)
From Coq Require Import List ZArith Bool Lia Arith Reals Lra.
From Flocq Require Import Core.
From Verif Require Import Base Num NumList NpOps RealSpec RealStat MinMax_model Stft_model Stft_spec Stft_proofs Stft_proofs2 SpecGram_model SpecGram_spec SpecGram_proofs SpecGram_proofs2.
Import ListNotations.
Local Open Scope nat_scope.

Local Notation weights wl window := (match window with Some w => w | None => np_hamming wl end).

Lemma nan_eq (x : XR) : n_isnan x = true -> x = (n_nan : XR).
Proof. destruct x; try discriminate. reflexivity. Qed.

(** ** the spectrogram of matplotlib *)
Section Mpl.
Variables (Fs : R) (find : bool) (N : nat) (window : option (list XR)).
Hypotheses (NP : 0 < N) (HW : fits N window).
Local Notation wl := (Z.of_nat N).

Definition the_grid (rsl : list XR) : list (list XR) := grid_of (fun v => psd Fs (weights wl window) v N) rsl N.
Definition the_freqs : list XR := map (fun k => (XFin (INR k * Fs / INR N)%R : XR)) (seq 0 (N / 2 + 1)).

Lemma weights_length : length (weights wl window) = N.
Proof using HW. destruct window as [l|]; cbn [fits] in HW; auto. unfold np_hamming. rewrite map_length, seq_length, Nat2Z.id. auto. Qed.

Lemma mpl_uses rsl fo : uses (mpl_env Fs find) rsl wl window None fo (the_grid rsl) the_freqs.
Proof using NP HW.
  right. split; auto. cbn [specg mpl_env hamming]. rewrite specgram_grid.
  rewrite weights_length, Nat2Z.id, Nat.eqb_refl. cbn [negb].
  destruct (Z.leb_spec wl 0); [lia|]. reflexivity.
Qed.
Lemma the_grid_nonempty rsl : the_grid rsl <> [].
Proof using. unfold the_grid, grid_of. intros E. apply map_eq_nil in E. apply (f_equal (@length nat)) in E. rewrite seq_length, Nat.add_comm in E. discriminate E. Qed.
Lemma the_grid_rect rsl : rect (Nat.max N (length rsl) - N + 1) (the_grid rsl).
Proof using. unfold the_grid, grid_of. apply Forall_forall. intros row Hr. apply in_map_iff in Hr as (k & <- & _). rewrite map_length, seq_length, pad_length. reflexivity. Qed.
Lemma the_grid_rows rsl : length the_freqs = length (the_grid rsl).
Proof using. unfold the_freqs, the_grid, grid_of. rewrite !map_length, !seq_length. reflexivity. Qed.

(** record at least as long as the window *)
Lemma long_pad rsl : N <= length rsl -> rsl ++ repeat (zero : XR) (N - length rsl) = rsl.
Proof using. clear NP HW. intros. replace (N - length rsl) with 0 by lia. apply app_nil_r. Qed.
Lemma power_window rsl k t : N <= length rsl -> k < N / 2 + 1 ->
  power (the_grid rsl) (length rsl) (length rsl - N + 1) k t =
  if ((N - 1) / 2 <=? t) && (t <? (N - 1) / 2 + (length rsl - N + 1)) then psd Fs (weights wl window) (slice (t - (N - 1) / 2) (t - (N - 1) / 2 + N) rsl) N k else (n_nan : XR).
Proof using NP.
  intros L K. unfold power, centred. replace (length rsl - (length rsl - N + 1)) with (N - 1) by lia.
  destruct (_ && _) eqn:E; [|reflexivity]. apply andb_true_iff in E as [E1 E2]. apply Nat.leb_le in E1. apply Nat.ltb_lt in E2.
  unfold the_grid, grid_of. rewrite long_pad by auto. rewrite get_map_seq by auto. unfold nget. rewrite get_map_seq by lia. reflexivity.
Qed.

(** a missing sample blanks every step whose window contains it *)
Theorem missing_sample rsl thr fd (a b : nat) fo i t : N <= length rsl -> i < length rsl -> nget rsl i = (n_nan : XR) -> t < length rsl -> in_window N t i ->
  exists r, stft_classification (mpl_env Fs find) rsl wl thr fd (Some (Z.of_nat a)) (Some (Z.of_nat b)) None false window None fo = Ok r /\
    nget (r_P_sum_diff r) t = (n_nan : XR) /\ get false (r_wet r) t = false.
Proof using NP HW.
  intros L Hi E Ht [W1 W2].
  destruct (stft_correct XRsem (mpl_env Fs find) rsl wl thr fd a b window None fo _ _ _ (mpl_uses rsl fo) (the_grid_nonempty rsl) (the_grid_rect rsl) (the_grid_rows rsl)) as (r & Er & _ & _ & Hr); [lia|].
  replace (Nat.max N (length rsl) - N + 1) with (length rsl - N + 1) in Hr by lia.
  exists r. split; auto. destruct (Hr t Ht) as [V W]. cbn [val XRsem] in V.
  assert (B : forall sel, band (the_grid rsl) the_freqs (length rsl) (length rsl - N + 1) a b sel t = (n_nan : XR)).
  { intros sel. assert (Q : n_isnan (band (the_grid rsl) the_freqs (length rsl) (length rsl - N + 1) a b sel t) = true).
    { unfold band. apply (mean_all_nan XRsem). intros x Hx. apply in_map_iff in Hx as (k & <- & Hk). apply filter_In in Hk as [Hk _]. apply in_seq in Hk.
      apply (div_nan_l XRsem). rewrite power_window; auto; [|unfold the_freqs in Hk; rewrite map_length, seq_length in Hk; lia].
      destruct (_ && _) eqn:C; [|reflexivity]. apply andb_true_iff in C as [C1 C2]. apply Nat.leb_le in C1. apply Nat.ltb_lt in C2.
      rewrite psd_nan with (j := i - (t - (N - 1) / 2)); [reflexivity| | | |].
      - rewrite slice_length; lia.
      - apply weights_length.
      - lia.
      - unfold nget. rewrite get_slice by lia. fold (nget rsl (t - (N - 1) / 2 + (i - (t - (N - 1) / 2)))). replace (t - (N - 1) / 2 + (i - (t - (N - 1) / 2))) with i by lia. exact E. }
    exact (nan_eq _ Q). }
  rewrite !B in V, W. split; [exact V|]. rewrite W. destruct thr; reflexivity.
Qed.

(** a flag depends on the samples in its window and in the windows of the dry period *)
Theorem reach rsl rsl' thr fd (a b : nat) fo t : N <= length rsl -> length rsl' = length rsl -> t < length rsl ->
  (forall i, i < length rsl -> in_window N t i \/ (exists u, a <= u < b /\ in_window N u i) -> nget rsl' i = nget rsl i) ->
  exists r r', stft_classification (mpl_env Fs find) rsl wl thr fd (Some (Z.of_nat a)) (Some (Z.of_nat b)) None false window None fo = Ok r /\
    stft_classification (mpl_env Fs find) rsl' wl thr fd (Some (Z.of_nat a)) (Some (Z.of_nat b)) None false window None fo = Ok r' /\
    nget (r_P_sum_diff r') t = nget (r_P_sum_diff r) t /\ get false (r_wet r') t = get false (r_wet r) t.
Proof using NP HW.
  intros L L' Ht E.
  destruct (stft_correct XRsem (mpl_env Fs find) rsl wl thr fd a b window None fo _ _ _ (mpl_uses rsl fo) (the_grid_nonempty rsl) (the_grid_rect rsl) (the_grid_rows rsl)) as (r & Er & _ & _ & Hr); [lia|].
  destruct (stft_correct XRsem (mpl_env Fs find) rsl' wl thr fd a b window None fo _ _ _ (mpl_uses rsl' fo) (the_grid_nonempty rsl') (the_grid_rect rsl') (the_grid_rows rsl')) as (r' & Er' & _ & _ & Hr'); [lia|].
  exists r, r'. split; auto. split; auto. destruct (Hr t Ht) as [V W]. destruct (Hr' t) as [V' W']; [lia|]. cbn [val XRsem] in V, V'.
  assert (P : forall u k, (u = t \/ a <= u < b) -> k < N / 2 + 1 ->
     power (the_grid rsl') (length rsl) (length rsl - N + 1) k u = power (the_grid rsl) (length rsl) (length rsl - N + 1) k u).
  { intros u k Hu K. rewrite <- L' at 1 2. rewrite !power_window by lia. rewrite L'. destruct (_ && _) eqn:C; [|reflexivity].
    apply andb_true_iff in C as [C1 C2]. apply Nat.leb_le in C1. apply Nat.ltb_lt in C2. f_equal. apply (get_ext (n_nan : XR)).
    - rewrite !slice_length; lia.
    - intros i. rewrite slice_length by lia. intros Hi. rewrite !get_slice by lia. apply E; [lia|]. unfold in_window.
      destruct Hu as [->|Hu]; [left; lia|right; exists u; split; [lia|lia]]. }
  assert (B : forall sel, band (the_grid rsl') the_freqs (length rsl) (length rsl - N + 1) a b sel t = band (the_grid rsl) the_freqs (length rsl) (length rsl - N + 1) a b sel t).
  { intros sel. unfold band. f_equal. apply map_ext_in. intros k Hk. apply filter_In in Hk as [Hk _]. apply in_seq in Hk. unfold the_freqs in Hk. rewrite map_length, seq_length in Hk.
    rewrite (P t k) by (auto; lia). f_equal. unfold dry_level. f_equal. f_equal. apply map_ext_in. intros u Hu. apply in_seq in Hu. apply P; lia. }
  rewrite L' in V', W'. replace (Nat.max N (length rsl) - N + 1) with (length rsl - N + 1) in * by lia. rewrite !B in V', W'. rewrite V, V', W, W'. auto.
Qed.
End Mpl.

(** ** one empty band *)
Theorem one_band (O : numops) (S : numsem O) (env : stft_env O) rsl wl thr fd (a b : nat) window Pxx fo P f c :
  uses env rsl wl window Pxx fo P f -> P <> [] -> rect c P -> length f = length P -> c <= length rsl ->
  (forall k, k < length f -> n_leb (nget f k) fd = false) \/ (forall k, k < length f -> n_ltb fd (nget f k) = false) ->
  exists r, stft_classification env rsl wl thr fd (Some (Z.of_nat a)) (Some (Z.of_nat b)) None false window Pxx fo = Ok r /\
    forall t, get false (r_wet r) t = false.
Proof.
  intros U NE R Lf Hc HB. destruct (stft_correct S env rsl wl thr fd a b window Pxx fo P f c U NE R Lf Hc) as (r & Er & Lr & _ & Hr).
  exists r. split; auto. intros t. destruct (Nat.lt_ge_cases t (length rsl)) as [Ht|Ht]; [|unfold get; apply nth_overflow; lia].
  destruct (Hr t Ht) as [_ W]. rewrite W. apply (ltb_nan_r S).
  assert (X : forall sel, (forall k, k < length f -> sel (nget f k) = false) -> n_isnan (band P f (length rsl) c a b sel t) = true).
  { intros sel H. unfold band. rewrite filter_nil; [apply (mean_nil S)|]. intros k Hk. apply in_seq in Hk. apply H. lia. }
  destruct HB as [H|H]; [apply (sub_nan_l S); apply (X (fun x => n_leb x fd)); auto|apply (sub_nan_r S); apply (X (fun x => n_ltb fd x)); auto].
Qed.

(** ** columns that are all alike *)
Lemma mean_ones_or_nan (l : list XR) : (forall x, In x l -> x = (n_nan : XR) \/ x = (XFin 1 : XR)) -> n_mean l = (n_nan : XR) \/ n_mean l = (XFin 1 : XR).
Proof.
  intros H. destruct (existsb n_isnan l) eqn:E.
  - left. apply existsb_exists in E as (x & Hx & N). apply nan_eq. exact (mean_nan XRsem l x Hx N).
  - destruct l as [|x l]; [left; apply mean_empty|]. right.
    assert (A : x :: l = ofR (repeat 1%R (length (x :: l)))).
    { unfold ofR. rewrite map_repeat'. assert (forall z, In z (x :: l) -> z = (XFin 1 : XR)).
      { intros z Hz. destruct (H z Hz) as [->|]; auto. assert (existsb n_isnan (x :: l) = true) by (apply existsb_exists; exists (n_nan : XR); auto). congruence. }
      clear H E. set (L := x :: l) in *. clearbody L. clear x l. induction L as [|z L IH]; [reflexivity|]. cbn [length repeat]. f_equal; [apply H0; left; auto|apply IH; intros; apply H0; right; auto]. }
    rewrite A, n_mean_ofR by (cbn; discriminate). f_equal. unfold rmean. rewrite repeat_length.
    assert (Q : forall n, rsum (repeat 1%R n) = INR n) by (induction n; [reflexivity|cbn [repeat rsum fold_right]; fold (rsum (repeat 1%R n)); rewrite IHn, S_INR; ring]).
    rewrite Q. field. apply not_0_INR. cbn. lia.
Qed.

Lemma filter_ext_all {A} (g : A -> bool) l : (forall x, In x l -> g x = true) -> filter g l = l.
Proof. induction l; intros H; [reflexivity|]. cbn. rewrite H by (left; auto). f_equal. apply IHl. intros; apply H; right; auto. Qed.

Theorem equal_columns (env : stft_env XR) rsl wl thr fd (a b : nat) window Pxx fo P f c :
  uses env rsl wl window Pxx fo P f -> P <> [] -> length f = length P -> c <= length rsl -> (0 <= thr)%R ->
  (forall row, In row P -> exists p, reading p /\ row = repeat p c) ->
  exists r, stft_classification env rsl wl (XFin thr : XR) fd (Some (Z.of_nat a)) (Some (Z.of_nat b)) None false window Pxx fo = Ok r /\
    forall t, get false (r_wet r) t = false.
Proof.
  intros U NE Lf Hc HT HP.
  assert (R : rect c P) by (apply Forall_forall; intros row Hr; destruct (HP row Hr) as (p & _ & ->); apply repeat_length).
  destruct (stft_correct XRsem env rsl wl (XFin thr : XR) fd a b window Pxx fo P f c U NE R Lf Hc) as (r & Er & Lr & _ & Hr).
  exists r. split; auto. intros t. destruct (Nat.lt_ge_cases t (length rsl)) as [Ht|Ht]; [|unfold get; apply nth_overflow; lia].
  destruct (Hr t Ht) as [_ W]. rewrite W.
  set (n := length rsl) in *.
  assert (PW : forall k, k < length P -> exists p, reading p /\ (forall u, power P n c k u = (n_nan : XR) \/ power P n c k u = p)).
  { intros k Hk. destruct (HP (get [] P k)) as (p & Rp & Ep); [unfold get; apply nth_In; auto|]. exists p. split; auto. intros u. unfold power.
    unfold centred. destruct (_ && _) eqn:C; [|left; reflexivity]. apply andb_true_iff in C as [C1 C2]. apply Nat.leb_le in C1. apply Nat.ltb_lt in C2.
    right. rewrite Ep. unfold nget. rewrite get_repeat by lia. reflexivity. }
  assert (Q : forall k u, k < length P -> n_div (power P n c k u) (dry_level P n c a b k) = (n_nan : XR) \/ n_div (power P n c k u) (dry_level P n c a b k) = (XFin 1 : XR)).
  { intros k u Hk. destruct (PW k Hk) as (p & Rp & Hp). destruct (Hp u) as [->| ->]; [left; reflexivity|].
    destruct Rp as [->|[q ->]]; [left; reflexivity|].
    assert (D : exists m, filter (fun x => negb (n_isnan x)) (map (power P n c k) (seq a (b - a))) = repeat (XFin q : XR) m).
    { generalize (seq a (b - a)). intros l. induction l as [|v l [m IH]]; [exists 0; reflexivity|]. cbn [map filter].
      destruct (Hp v) as [->| ->]; cbn [n_isnan n_nan XR xisnan negb]; [exists m; exact IH|]. exists (S m). cbn [repeat]. f_equal. exact IH. }
    destruct D as [m D]. unfold dry_level. rewrite D. destruct m as [|m]; [left; cbn [repeat]; rewrite mean_empty; reflexivity|].
    assert (M : n_mean (repeat (XFin q : XR) (S m)) = (XFin q : XR)).
    { change (repeat (XFin q : XR) (S m)) with ((XFin q : XR) :: repeat (XFin q : XR) m).
      assert (A : (XFin q : XR) :: repeat (XFin q : XR) m = ofR (repeat q (S m))) by (unfold ofR; rewrite map_repeat'; reflexivity).
      rewrite A, n_mean_ofR by discriminate. f_equal. unfold rmean. rewrite repeat_length.
      assert (X : forall n, rsum (repeat q n) = (INR n * q)%R) by (induction n0; [cbn; ring|cbn [repeat rsum fold_right]; fold (rsum (repeat q n0)); rewrite IHn0, S_INR; ring]).
      rewrite X. field. apply not_0_INR. lia. }
    rewrite M. cbn. destruct (Req_bool_spec q 0) as [->|NZ]; [left; rewrite Rcompare_Eq by auto; reflexivity|]. right. f_equal. field. auto. }
  assert (BD : forall sel, band P f n c a b sel t = (n_nan : XR) \/ band P f n c a b sel t = (XFin 1 : XR)).
  { intros sel. unfold band. apply mean_ones_or_nan. intros x Hx. apply in_map_iff in Hx as (k & <- & Hk). apply filter_In in Hk as [Hk _]. apply in_seq in Hk. apply Q. lia. }
  destruct (BD (fun x => n_leb x fd)) as [->| ->]; [reflexivity|]. destruct (BD (fun x => n_ltb fd x)) as [->| ->]; [reflexivity|].
  cbn. apply Rlt_bool_false. lra.
Qed.

(** records that are no longer than the window, and constant levels *)
Theorem short_record Fs find N rsl thr fd (a b : nat) window fo : (0 < Fs)%R -> 0 < N -> usable (Z.of_nat N) window -> (forall x, In x rsl -> reading x) ->
  1 <= length rsl <= N -> (0 <= thr)%R ->
  exists r, stft_classification (mpl_env Fs find) rsl (Z.of_nat N) (XFin thr : XR) fd (Some (Z.of_nat a)) (Some (Z.of_nat b)) None false window None fo = Ok r /\
    forall t, get false (r_wet r) t = false.
Proof.
  intros HF NP U H L HT. assert (Ft : fits N window). { destruct window as [l|]; cbn in *; auto. destruct U as (w & -> & E & _). rewrite ofR_length. lia. }
  destruct (weights_usable _ _ U) as (w & EW & Lw & HW).
  apply equal_columns with (P := the_grid Fs N window rsl) (f := the_freqs Fs N) (c := 1); auto.
  - apply mpl_uses; auto.
  - apply the_grid_nonempty.
  - apply the_grid_rows.
  - lia.
  - intros row Hr. unfold the_grid, grid_of in Hr. apply in_map_iff in Hr as (k & <- & _). rewrite pad_length.
    replace (Nat.max N (length rsl) - N + 1) with 1 by lia. cbn [seq map]. eexists. split; [|reflexivity].
    assert (E : (match window with Some l => l | None => np_hamming (Z.of_nat N) end) = ofR w) by (rewrite <- EW; reflexivity). rewrite E.
    apply psd_reading; auto; [apply HW; lia|lia|intros; eapply segment_readings; eauto|]. rewrite slice_length; [lia|]. rewrite pad_length. lia.
Qed.

Theorem constant_level Fs find N n x thr fd (a b : nat) window fo : (0 < Fs)%R -> 0 < N -> usable (Z.of_nat N) window -> 1 <= n -> (0 <= thr)%R ->
  exists r, stft_classification (mpl_env Fs find) (repeat (XFin x : XR) n) (Z.of_nat N) (XFin thr : XR) fd (Some (Z.of_nat a)) (Some (Z.of_nat b)) None false window None fo = Ok r /\
    forall t, get false (r_wet r) t = false.
Proof.
  intros HF NP U Hn HT. assert (H : forall y, In y (repeat (XFin x : XR) n) -> reading y) by (intros y Hy; apply repeat_spec in Hy; right; eauto).
  destruct (Nat.le_gt_cases n N) as [L|L]; [apply short_record; auto; rewrite repeat_length; lia|].
  assert (Ft : fits N window). { destruct window as [l|]; cbn in *; auto. destruct U as (w & -> & E & _). rewrite ofR_length. lia. }
  destruct (weights_usable _ _ U) as (w & EW & Lw & HW).
  apply equal_columns with (P := the_grid Fs N window (repeat (XFin x : XR) n)) (f := the_freqs Fs N) (c := n - N + 1); auto.
  - apply mpl_uses; auto.
  - apply the_grid_nonempty.
  - apply the_grid_rows.
  - rewrite repeat_length. lia.
  - intros row Hr. unfold the_grid, grid_of in Hr. rewrite long_pad in Hr by (rewrite repeat_length; lia). rewrite repeat_length in Hr.
    apply in_map_iff in Hr as (k & <- & _).
    assert (SL : forall i, i < n - N + 1 -> slice i (i + N) (repeat (XFin x : XR) n) = repeat (XFin x : XR) N).
    { intros i Hi. apply (get_ext (n_nan : XR)); [rewrite slice_length, repeat_length; rewrite ?repeat_length; lia|]. intros j. rewrite slice_length by (rewrite repeat_length; lia).
      intros Hj. rewrite get_slice, !get_repeat by lia. reflexivity. }
    exists (psd Fs (match window with Some l => l | None => np_hamming (Z.of_nat N) end) (repeat (XFin x : XR) N) N k). split.
    + assert (E : (match window with Some l => l | None => np_hamming (Z.of_nat N) end) = ofR w) by (rewrite <- EW; reflexivity). rewrite E.
      apply psd_reading; auto; [apply HW; lia|lia|intros y Hy; apply repeat_spec in Hy; right; eauto|apply repeat_length].
    + apply (get_ext (n_nan : XR)); [rewrite map_length, seq_length, repeat_length; auto|]. intros i. rewrite map_length, seq_length. intros Hi.
      rewrite get_map_seq, get_repeat by auto. rewrite SL by auto. reflexivity.
Qed.

(** ** the scores of the dry period average to zero *)
Lemma rsum_swap {A B} (g : A -> B -> R) (l : list A) (m : list B) :
  rsum (map (fun t => rsum (map (fun k => g k t) l)) m) = rsum (map (fun k => rsum (map (g k) m)) l).
Proof.
  induction m as [|y m IH]; cbn [map].
  - change (rsum []) with 0%R. induction l; [reflexivity|]. cbn [map rsum fold_right]. fold (rsum (map (fun k : A => 0%R) l)). rewrite <- IHl. ring.
  - cbn [rsum fold_right]. fold (rsum (map (fun t => rsum (map (fun k => g k t) l)) m)). rewrite IH. clear IH.
    induction l as [|x l IH]; [cbn; ring|]. cbn [map rsum fold_right] in *. fold (rsum (map (fun k => g k y) l)) (rsum (map (g x) m)) (rsum (map (fun k => g k y + fold_right Rplus 0 (map (g k) m))%R l)) in *.
    unfold rsum in *. cbn [fold_right] in *. lra.
Qed.
Lemma rsum_ones {A} (l : list A) : rsum (map (fun _ => 1%R) l) = INR (length l).
Proof. induction l; [reflexivity|]. cbn [map rsum fold_right length]. fold (rsum (map (fun _ : A => 1%R) l)). rewrite IHl, S_INR. ring. Qed.
Lemma rsum_divs {A} (g : A -> R) s l : rsum (map (fun x => g x / s)%R l) = (rsum (map g l) / s)%R.
Proof. induction l; cbn [map rsum fold_right]; [unfold Rdiv; ring|]. fold (rsum (map (fun x => g x / s)%R l)) (rsum (map g l)). rewrite IHl. unfold Rdiv. ring. Qed.
Lemma rsum_minus {A} (g h : A -> R) l : rsum (map (fun x => g x - h x)%R l) = (rsum (map g l) - rsum (map h l))%R.
Proof. induction l; cbn [map rsum fold_right]; [ring|]. fold (rsum (map (fun x => g x - h x)%R l)) (rsum (map g l)) (rsum (map h l)). rewrite IHl. ring. Qed.

Section Dry.
Variables (Q : list (list R)) (f : list XR) (n c a b : nat).
Let P := map ofR Q.
Let s := (n - c) / 2.
Hypotheses (Hc : c <= n) (RQ : Forall (fun row => length row = c) Q) (Lf : length f = length Q) (Ha : s <= a) (Hab : a < b) (Hb : b <= s + c).
Hypothesis (NZ : forall row, In row Q -> rsum (slice (a - s) (b - s) row) <> 0%R).

Definition cell (k t : nat) : R := rget (get [] Q k) (t - s).
Definition level (k : nat) : R := rmean (map (cell k) (seq a (b - a))).

Lemma power_cell k t : k < length Q -> a <= t < b -> power P n c k t = (XFin (cell k t) : XR).
Proof using Hc RQ Ha Hab Hb NZ Lf.
  intros Hk Ht. unfold power, centred. fold s. destruct (Nat.leb_spec s t); [|lia]. destruct (Nat.ltb_spec t (s + c)); [|lia]. cbn [andb].
  unfold P, nget. rewrite (get_map _ []) by auto. rewrite Forall_forall in RQ. rewrite ofR_get; [reflexivity|].
  rewrite (RQ (get [] Q k)); [lia|]. unfold get. apply nth_In. auto.
Qed.
Lemma cells_slice k : k < length Q -> map (cell k) (seq a (b - a)) = slice (a - s) (b - s) (get [] Q k).
Proof using Hc RQ Ha Hab Hb NZ Lf.
  intros Hk. rewrite Forall_forall in RQ. assert (L : length (get [] Q k) = c) by (apply RQ; unfold get; apply nth_In; auto).
  apply (get_ext 0%R); [rewrite map_length, seq_length, slice_length; lia|]. intros i. rewrite map_length, seq_length. intros Hi.
  rewrite get_slice by lia. rewrite (get_map _ 0) by (rewrite seq_length; auto). change (get 0 (seq a (b - a)) i) with (nth i (seq a (b - a)) 0). rewrite seq_nth by auto. unfold cell, rget. f_equal. lia.
Qed.
Lemma level_nz k : k < length Q -> level k <> 0%R.
Proof using Hc RQ Ha Hab Hb NZ Lf.
  intros Hk E. apply (NZ (get [] Q k)); [unfold get; apply nth_In; auto|]. rewrite <- cells_slice by auto. unfold level, rmean in E.
  rewrite map_length, seq_length in E. assert (P0 : (0 < INR (b - a))%R) by (apply lt_0_INR; lia).
  assert (Z : (rsum (map (cell k) (seq a (b - a))) = rsum (map (cell k) (seq a (b - a))) / INR (b - a) * INR (b - a))%R) by (field; lra). rewrite Z, E. ring.
Qed.
Lemma dry_level_R k : k < length Q -> dry_level P n c a b k = (XFin (level k) : XR).
Proof using Hc RQ Ha Hab Hb NZ Lf.
  intros Hk. unfold dry_level, level.
  assert (E : map (power P n c k) (seq a (b - a)) = ofR (map (cell k) (seq a (b - a)))).
  { unfold ofR. rewrite map_map. apply map_ext_in. intros t Ht. apply in_seq in Ht. apply power_cell; auto. lia. }
  rewrite E, filter_ext_all.
  - apply n_mean_ofR. destruct (b - a) eqn:D; [lia|discriminate].
  - intros x Hx. unfold ofR in Hx. apply in_map_iff in Hx as (r & <- & _). reflexivity.
Qed.

Definition rows (sel : XR -> bool) : list nat := filter (fun k => sel (nget f k)) (seq 0 (length f)).
Definition band_R (sel : XR -> bool) (t : nat) : R := rmean (map (fun k => cell k t / level k)%R (rows sel)).

Lemma band_val sel t : rows sel <> [] -> a <= t < b -> band P f n c a b sel t = (XFin (band_R sel t) : XR).
Proof using Hc RQ Ha Hab Hb NZ Lf.
  intros NE Ht. unfold band, band_R. fold (rows sel).
  rewrite <- n_mean_ofR by (intros E; apply map_eq_nil in E; auto). f_equal. unfold ofR. rewrite map_map. apply map_ext_in. intros k Hk.
  apply filter_In in Hk as [Hk _]. apply in_seq in Hk. rewrite power_cell, dry_level_R by lia. cbn. rewrite Req_bool_false by (apply level_nz; lia). reflexivity.
Qed.
Lemma band_total sel : rows sel <> [] -> rsum (map (band_R sel) (seq a (b - a))) = INR (b - a).
Proof using Hc RQ Ha Hab Hb NZ Lf.
  intros NE. unfold band_R, rmean. rewrite rsum_divs with (g := fun t => rsum (map (fun k => cell k t / level k)%R (rows sel))) (s := INR (length (rows sel)))
    || (erewrite map_ext; [|intros t; rewrite map_length; reflexivity]; rewrite (rsum_divs (fun t => rsum (map (fun k => cell k t / level k)%R (rows sel))))).
  rewrite rsum_swap.
  assert (E : map (fun k => rsum (map (fun t => cell k t / level k)%R (seq a (b - a)))) (rows sel) = map (fun k => INR (b - a)) (rows sel)).
  { apply map_ext_in. intros k Hk. apply filter_In in Hk as [Hk _]. apply in_seq in Hk. rewrite (rsum_divs (cell k)).
    assert (LK : level k <> 0%R) by (apply level_nz; lia). unfold level, rmean in *. rewrite map_length, seq_length in *.
    assert (P0 : (0 < INR (b - a))%R) by (apply lt_0_INR; lia).
    assert (SK : rsum (map (cell k) (seq a (b - a))) <> 0%R) by (intros Z; rewrite Z in LK; apply LK; unfold Rdiv; ring). field. split; auto; lra. }
  rewrite E. replace (map (fun _ : nat => INR (b - a)) (rows sel)) with (map (fun x => INR (b - a) * x)%R (map (fun _ : nat => 1%R) (rows sel))) by (rewrite map_map; apply map_ext; intros; ring).
  rewrite rsum_scaled, rsum_ones. field. apply not_0_INR. destruct (rows sel); [congruence|discriminate].
Qed.
End Dry.

Lemma rows_nonempty f (sel : XR -> bool) : (exists k, k < length f /\ sel (nget f k) = true) -> rows f sel <> [].
Proof. intros (k & Hk & E) Z. assert (I : In k (rows f sel)) by (apply filter_In; split; auto; apply in_seq; lia). rewrite Z in I. destruct I. Qed.

Theorem dry_scores (env : stft_env XR) rsl wl thr fd (a b : nat) window Pxx fo Q f c :
  uses env rsl wl window Pxx fo (map ofR Q) f -> Q <> [] -> Forall (fun row => length row = c) Q -> length f = length Q -> c <= length rsl ->
  let s := (length rsl - c) / 2 in
  s <= a -> a < b -> b <= s + c -> (forall row, In row Q -> rsum (slice (a - s) (b - s) row) <> 0%R) ->
  (exists k, k < length f /\ n_leb (nget f k) fd = true) -> (exists k, k < length f /\ n_ltb fd (nget f k) = true) ->
  exists r, stft_classification env rsl wl (XFin thr : XR) fd (Some (Z.of_nat a)) (Some (Z.of_nat b)) None false window Pxx fo = Ok r /\
    n_mean (map (nget (r_P_sum_diff r)) (seq a (b - a))) = (XFin 0 : XR) /\
    ((thr < 0)%R -> exists t, a <= t < b /\ get false (r_wet r) t = true) /\
    ((0 <= thr)%R -> exists t, a <= t < b /\ get false (r_wet r) t = false).
Proof.
  intros U NE RQ Lf Hc s Ha Hab Hb NZ H1 H2.
  assert (R : rect c (map ofR Q)). { apply Forall_forall. intros row Hr. apply in_map_iff in Hr as (q & <- & Hq). rewrite ofR_length. rewrite Forall_forall in RQ. auto. }
  destruct (stft_correct XRsem env rsl wl (XFin thr : XR) fd a b window Pxx fo (map ofR Q) f c U) as (r & Er & _ & _ & Hr); auto.
  { intros E. apply map_eq_nil in E. auto. } { rewrite map_length. auto. }
  exists r. split; auto.
  set (lo := fun x => n_leb x fd) in *. set (hi := fun x => n_ltb fd x) in *.
  pose proof (rows_nonempty f lo H1) as R1. pose proof (rows_nonempty f hi H2) as R2.
  set (sc := fun t => (band_R Q f (length rsl) c a b lo t - band_R Q f (length rsl) c a b hi t)%R).
  assert (SC : forall t, a <= t < b -> nget (r_P_sum_diff r) t = (XFin (sc t) : XR) /\ get false (r_wet r) t = Rlt_bool thr (sc t)).
  { intros t Ht. assert (Hn : t < length rsl). { subst s. assert ((length rsl - c) / 2 <= length rsl - c) by (apply Nat.div_le_upper_bound; lia). lia. }
    destruct (Hr t Hn) as [V W]. cbn [val XRsem] in V.
    rewrite (band_val Q f (length rsl) c a b Hc RQ Lf Ha Hab Hb NZ lo t R1 Ht), (band_val Q f (length rsl) c a b Hc RQ Lf Ha Hab Hb NZ hi t R2 Ht) in V, W.
    split; [rewrite V; reflexivity|rewrite W; reflexivity]. }
  assert (T : rsum (map sc (seq a (b - a))) = 0%R).
  { unfold sc. rewrite rsum_minus, (band_total Q f (length rsl) c a b Hc RQ Lf Ha Hab Hb NZ lo R1), (band_total Q f (length rsl) c a b Hc RQ Lf Ha Hab Hb NZ hi R2). ring. }
  split; [|split].
  - assert (E : map (nget (r_P_sum_diff r)) (seq a (b - a)) = ofR (map sc (seq a (b - a)))).
    { unfold ofR. rewrite map_map. apply map_ext_in. intros t Ht. apply in_seq in Ht. apply SC. lia. }
    rewrite E, n_mean_ofR by (destruct (b - a) eqn:D; [lia|discriminate]). f_equal. unfold rmean. rewrite T. unfold Rdiv. ring.
  - intros HT. destruct (existsb (fun t => Rlt_bool thr (sc t)) (seq a (b - a))) eqn:E.
    + apply existsb_exists in E as (t & Ht & E). apply in_seq in Ht. exists t. split; [lia|]. destruct (SC t) as [_ ->]; [lia|]. exact E.
    + exfalso. assert (B : forall t, In t (seq a (b - a)) -> (sc t <= thr)%R).
      { intros t Ht. destruct (Rlt_bool_spec thr (sc t)) as [X|X]; [|lra]. assert (existsb (fun t => Rlt_bool thr (sc t)) (seq a (b - a)) = true) by (apply existsb_exists; exists t; split; auto; apply Rlt_bool_true; auto). congruence. }
      assert (Z : (rsum (map sc (seq a (b - a))) <= thr * INR (length (seq a (b - a))))%R).
      { clear - B. induction (seq a (b - a)) as [|t l IH]; [cbn; lra|]. cbn [map rsum fold_right length]. fold (rsum (map sc l)). rewrite S_INR.
        assert (sc t <= thr)%R by (apply B; left; auto). assert (rsum (map sc l) <= thr * INR (length l))%R by (apply IH; intros; apply B; right; auto). lra. }
      rewrite T, seq_length in Z. assert (0 < INR (b - a))%R by (apply lt_0_INR; lia). nra.
  - intros HT. destruct (existsb (fun t => Rle_bool (sc t) thr) (seq a (b - a))) eqn:E.
    + apply existsb_exists in E as (t & Ht & E). apply in_seq in Ht. exists t. split; [lia|]. destruct (SC t) as [_ ->]; [lia|].
      destruct (Rle_bool_spec (sc t) thr); [|discriminate]. apply Rlt_bool_false. auto.
    + exfalso.
      assert (B : forall t, In t (seq a (b - a)) -> (thr < sc t)%R).
      { intros t Ht. destruct (Rle_bool_spec (sc t) thr) as [X|X]; [|lra]. assert (existsb (fun t => Rle_bool (sc t) thr) (seq a (b - a)) = true) by (apply existsb_exists; exists t; split; auto; apply Rle_bool_true; auto). congruence. }
      assert (Z : (0 < rsum (map sc (seq a (b - a))))%R).
      { destruct (b - a) as [|m] eqn:D; [lia|]. cbn [seq map rsum fold_right]. fold (rsum (map sc (seq (S a) m))).
        assert (X : (0 <= rsum (map sc (seq (S a) m)))%R).
        { assert (B' : forall t, In t (seq (S a) m) -> (thr < sc t)%R) by (intros; apply B; right; auto). clear - B' HT.
          induction (seq (S a) m) as [|t l IH]; [cbn; lra|]. cbn [map rsum fold_right]. fold (rsum (map sc l)). assert (thr < sc t)%R by (apply B'; left; auto).
          assert (0 <= rsum (map sc l))%R by (apply IH; intros; apply B'; right; auto). lra. }
        assert (thr < sc a)%R by (apply B; left; auto). lra. }
      lra.
Qed.
