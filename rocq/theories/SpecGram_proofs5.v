(** * Parseval's identity for the spectrogram *)
From Coq Require Import List ZArith Bool Lia Arith Reals Lra.
From Flocq Require Import Core.
From Verif Require Import Base Num NumList NpOps RealSpec RealStat MinMax_model Stft_model Stft_spec Stft_proofs SpecGram_model SpecGram_spec SpecGram_proofs SpecGram_proofs2 SpecGram_proofs3.
Import ListNotations.
Local Open Scope nat_scope.

(** sum of [g 0 .. g (n-1)] *)
Definition tot (g : nat -> R) (n : nat) : R := rsum (map g (seq 0 n)).

Lemma rsum_snoc l x : rsum (l ++ [x]) = (rsum l + x)%R.
Proof. rewrite rsum_app. cbn. ring. Qed.
Lemma tot_S g n : tot g (S n) = (tot g n + g n)%R.
Proof. unfold tot. rewrite seq_S, map_app. cbn [map Nat.add]. apply rsum_snoc. Qed.
Lemma tot_ext g h n : (forall i, i < n -> g i = h i) -> tot g n = tot h n.
Proof. intros H. unfold tot. f_equal. apply map_ext_in. intros i Hi. apply in_seq in Hi. apply H. lia. Qed.
Lemma tot_scal c g n : tot (fun i => c * g i)%R n = (c * tot g n)%R.
Proof. induction n; [cbn; ring|]. rewrite !tot_S, IHn. ring. Qed.
Lemma tot_add g h n : tot (fun i => g i + h i)%R n = (tot g n + tot h n)%R.
Proof. induction n; [cbn; ring|]. rewrite !tot_S, IHn. ring. Qed.
Lemma tot_swap g n m : tot (fun i => tot (fun j => g i j) m) n = tot (fun j => tot (fun i => g i j) n) m.
Proof. unfold tot. apply (rsum_swap (fun j i => g i j) (seq 0 m) (seq 0 n)). Qed.
Lemma tot_prod g h n : (tot g n * tot h n)%R = tot (fun i => tot (fun j => g i * h j)%R n) n.
Proof. rewrite (tot_ext (fun i => tot (fun j => g i * h j)%R n) (fun i => tot h n * g i)%R) by (intros; rewrite tot_scal; ring). rewrite tot_scal. ring. Qed.
Lemma tot_shift g n : tot g (S n) = (g 0%nat + tot (fun i => g (S i)) n)%R.
Proof. induction n; [cbn; ring|]. rewrite tot_S, IHn, tot_S. ring. Qed.
Lemma tot_split g n m : tot g (n + m) = (tot g n + tot (fun i => g (n + i)%nat) m)%R.
Proof. induction m; [rewrite Nat.add_0_r; cbn; ring|]. rewrite Nat.add_succ_r, !tot_S, IHm. ring. Qed.
Lemma tot_rev g n : tot g n = tot (fun i => g (n - 1 - i)%nat) n.
Proof.
  induction n; [reflexivity|]. rewrite tot_S, IHn, tot_shift. replace (S n - 1 - 0) with n by lia.
  rewrite (tot_ext (fun i => g (S n - 1 - S i)%nat) (fun i => g (n - 1 - i)%nat)) by (intros; f_equal; lia). ring.
Qed.

(** ** sums of cosines *)
Lemma cos_sum_telescope x n : (2 * sin (x / 2) * tot (fun k => cos (INR k * x)) n = sin (INR n * x - x / 2) + sin (x / 2))%R.
Proof.
  induction n as [|n IH].
  - cbn [INR]. replace (0 * x - x / 2)%R with (- (x / 2))%R by ring. rewrite sin_neg. unfold tot. cbn. ring.
  - rewrite tot_S, Rmult_plus_distr_l, IH, S_INR.
    replace ((INR n + 1) * x - x / 2)%R with (INR n * x + x / 2)%R by field. rewrite sin_plus, sin_minus. ring.
Qed.
Lemma cos_sum_zero (N : nat) (m : Z) : (0 < N)%nat -> (0 < Z.abs m < Z.of_nat N)%Z -> tot (fun k => cos (INR k * (2 * PI * IZR m / INR N))) N = 0%R.
Proof.
  intros HN Hm. set (x := (2 * PI * IZR m / INR N)%R). assert (P : (0 < INR N)%R) by (apply lt_0_INR; auto). pose proof PI_RGT_0 as HP.
  assert (NZ : sin (x / 2) <> 0%R).
  { assert (S : forall z, (0 < z < Z.of_nat N)%Z -> sin (2 * PI * IZR z / INR N / 2) <> 0%R).
    { intros z Hz. apply Rgt_not_eq. assert (Z1 : (0 < IZR z)%R) by (apply IZR_lt; lia). assert (Z2 : (IZR z < INR N)%R) by (rewrite INR_IZR_INZ; apply IZR_lt; lia).
      replace (2 * PI * IZR z / INR N / 2)%R with (PI * (IZR z / INR N))%R by (field; lra).
      assert (Q : (0 < IZR z / INR N < 1)%R). { split; [apply Rdiv_lt_0_compat; auto|]. apply Rmult_lt_reg_r with (INR N); auto. unfold Rdiv. rewrite Rmult_assoc, Rinv_l by lra. lra. }
      apply sin_gt_0; [apply Rmult_lt_0_compat; lra|]. rewrite <- (Rmult_1_r PI) at 2. apply Rmult_lt_compat_l; lra. }
    unfold x. destruct (Z.lt_total m 0) as [H|[H|H]].
    - replace (2 * PI * IZR m / INR N / 2)%R with (- (2 * PI * IZR (- m) / INR N / 2))%R by (rewrite opp_IZR; field; lra). rewrite sin_neg. intros E. apply (S (- m)%Z); [lia|]. lra.
    - subst. cbn in Hm. lia.
    - apply S. lia. }
  pose proof (cos_sum_telescope x N) as T.
  assert (E : sin (INR N * x - x / 2) = (- sin (x / 2))%R).
  { replace (INR N * x - x / 2)%R with (- (x / 2) + 2 * IZR m * PI)%R by (unfold x; field; lra). rewrite <- sin_neg.
    destruct (Z.le_ge_cases 0 m) as [M|M].
    - destruct (IZN m M) as [q ->]. rewrite <- INR_IZR_INZ. apply sin_period.
    - destruct (IZN (- m)) as [q Hq]; [lia|]. assert (Eq : IZR m = (- INR q)%R) by (rewrite INR_IZR_INZ, <- Hq, opp_IZR; ring). rewrite Eq.
      rewrite <- (sin_period (- (x / 2) + 2 * - INR q * PI) q). f_equal. ring. }
  rewrite E in T. assert (Z : (2 * sin (x / 2) * tot (fun k => cos (INR k * x)) N = 0)%R) by (rewrite T; ring).
  apply Rmult_integral in Z as [Z|Z]; [exfalso; apply NZ; lra|exact Z].
Qed.

Lemma tot_single g i n : i < n -> (forall j, j < n -> j <> i -> g j = 0%R) -> tot g n = g i.
Proof.
  intros Hi H. induction n as [|n IH]; [lia|]. rewrite tot_S. destruct (Nat.eq_dec i n) as [->|NE].
  - rewrite (tot_ext g (fun _ => 0 * 0)%R) by (intros; rewrite H by lia; ring). rewrite tot_scal. ring.
  - rewrite IH by (try lia; intros; apply H; lia). rewrite (H n) by lia. ring.
Qed.

(** ** the full spectrum *)
Section Parseval.
Variables (N : nat) (u : nat -> R).
Hypothesis HN : (0 < N)%nat.
Definition cpart (k : nat) : R := tot (fun j => u j * cos (2 * PI * INR k * INR j / INR N))%R N.
Definition spart (k : nat) : R := tot (fun j => u j * sin (2 * PI * INR k * INR j / INR N))%R N.
Definition pw (k : nat) : R := (cpart k * cpart k + spart k * spart k)%R.

Lemma pw_double k : pw k = tot (fun i => tot (fun j => u i * u j * cos (INR k * (2 * PI * IZR (Z.of_nat i - Z.of_nat j) / INR N)))%R N) N.
Proof using HN.
  unfold pw, cpart, spart. rewrite !tot_prod, <- tot_add. apply tot_ext. intros i Hi. rewrite <- tot_add. apply tot_ext. intros j Hj.
  replace (INR k * (2 * PI * IZR (Z.of_nat i - Z.of_nat j) / INR N))%R with (2 * PI * INR k * INR i / INR N - 2 * PI * INR k * INR j / INR N)%R.
  - rewrite cos_minus. ring.
  - rewrite minus_IZR, <- !INR_IZR_INZ. field. apply not_0_INR. lia.
Qed.
Theorem parseval : tot pw N = (INR N * tot (fun j => u j * u j) N)%R.
Proof using HN.
  rewrite (tot_ext pw (fun k => tot (fun i => tot (fun j => u i * u j * cos (INR k * (2 * PI * IZR (Z.of_nat i - Z.of_nat j) / INR N)))%R N) N)) by (intros; apply pw_double).
  rewrite tot_swap, <- tot_scal. apply tot_ext. intros i Hi. rewrite tot_swap.
  rewrite (tot_single (fun j => tot (fun k => u i * u j * cos (INR k * (2 * PI * IZR (Z.of_nat i - Z.of_nat j) / INR N)))%R N) i N Hi).
  - rewrite tot_scal. rewrite (tot_ext _ (fun _ => 1%R)).
    + assert (E : tot (fun _ => 1%R) N = INR N) by (clear; induction N as [|n IH]; [reflexivity|rewrite tot_S, IH, S_INR; ring]). rewrite E. ring.
    + intros k _. rewrite Z.sub_diag. replace (INR k * (2 * PI * 0 / INR N))%R with 0%R by (field; apply not_0_INR; lia). apply cos_0.
  - intros j Hj NE. rewrite tot_scal, cos_sum_zero by lia. ring.
Qed.

(** ** symmetry *)
Lemma pw_sym k : k <= N -> pw (N - k) = pw k.
Proof using HN.
  intros Hk. assert (P : (0 < INR N)%R) by (apply lt_0_INR; auto).
  assert (A : forall j, (2 * PI * INR (N - k) * INR j / INR N = - (2 * PI * INR k * INR j / INR N) + 2 * INR j * PI)%R) by (intros; rewrite minus_INR by auto; field; lra).
  unfold pw. assert (C : cpart (N - k) = cpart k) by (apply tot_ext; intros j Hj; rewrite A, cos_period, cos_neg; reflexivity).
  assert (S : spart (N - k) = (-1 * spart k)%R). { unfold spart. rewrite <- tot_scal. apply tot_ext. intros j Hj. rewrite A, sin_period, sin_neg. ring. }
  rewrite C, S. ring.
Qed.
Theorem one_sided : tot (fun k => row_factor N k * pw k)%R (N / 2 + 1) = tot pw N.
Proof using HN.
  set (m := N / 2).
  assert (D : forall k, 0 < k -> (k < m \/ (k = m /\ Nat.even N = false)) -> row_factor N k = 2%R).
  { intros k K H. unfold row_factor, doubled. fold m. destruct (Nat.eqb_spec k 0); [lia|]. destruct H as [H|[-> E]]; [|rewrite E; reflexivity]. destruct (Nat.eqb_spec k m); [lia|]. rewrite andb_false_r. reflexivity. }
  assert (D0 : row_factor N 0 = 1%R) by reflexivity.
  destruct (Nat.even N) eqn:EV.
  - (* N = 2 m *)
    assert (EN : N = 2 * m). { apply Nat.even_spec in EV as [q Eq]. subst m. rewrite Eq, Nat.mul_comm, Nat.div_mul by lia. lia. }
    assert (M : 0 < m) by lia. assert (DM : row_factor N m = 1%R). { unfold row_factor, doubled. fold m. rewrite EV, Nat.eqb_refl. rewrite andb_false_r. reflexivity. }
    rewrite Nat.add_1_r, tot_S, DM. destruct m as [|p] eqn:Em; [lia|]. rewrite tot_shift, D0.
    rewrite (tot_ext (fun i => row_factor N (S i) * pw (S i))%R (fun i => 2 * pw (S i))%R) by (intros; rewrite D by lia; reflexivity). rewrite tot_scal.
    assert (T : tot pw N = (pw 0%nat + tot (fun i => pw (S i)) p + pw (S p) + tot (fun i => pw (S i)) p)%R).
    { replace (tot pw N) with (tot pw (S p + S p)) by (f_equal; lia). rewrite tot_split, tot_shift, tot_shift. rewrite Nat.add_0_r.
      rewrite (tot_rev (fun i => pw (S p + S i))). rewrite (tot_ext (fun i => pw (S p + S (p - 1 - i))) (fun i => pw (S i))).
      - ring.
      - intros i Hi. rewrite <- (pw_sym (S i)) by lia. f_equal. lia. }
    rewrite T. ring.
  - assert (EN : N = 2 * m + 1). { apply not_true_iff_false in EV. pose proof (Nat.div_mod_eq N 2) as Q. fold m in Q. assert (N mod 2 < 2) by (apply Nat.mod_upper_bound; lia).
      destruct (Nat.eq_dec (N mod 2) 0) as [Z|Z]; [|lia]. exfalso. apply EV. apply Nat.even_spec. exists m. lia. }
    rewrite Nat.add_1_r, tot_shift, D0.
    rewrite (tot_ext (fun i => row_factor N (S i) * pw (S i))%R (fun i => 2 * pw (S i))%R) by (intros; rewrite D by lia; reflexivity). rewrite tot_scal.
    assert (T : tot pw N = (pw 0%nat + tot (fun i => pw (S i)) m + tot (fun i => pw (S i)) m)%R).
    { replace (tot pw N) with (tot pw (S m + m)) by (f_equal; lia). rewrite tot_split, tot_shift.
      rewrite (tot_rev (fun i => pw (S m + i))). rewrite (tot_ext (fun i => pw (S m + (m - 1 - i))) (fun i => pw (S i))).
      - ring.
      - intros i Hi. rewrite <- (pw_sym (S i)) by lia. f_equal. lia. }
    rewrite T. ring.
Qed.
End Parseval.

Lemma tot_rsum (l : list R) : tot (fun j => rget l j) (length l) = rsum l.
Proof.
  unfold tot. f_equal. apply (get_ext 0%R); [rewrite map_length, seq_length; auto|]. intros i. rewrite map_length, seq_length. intros Hi. rewrite get_map_seq by auto. reflexivity.
Qed.

(** the sum of a column is the mean square of the weighted samples over that of the weights *)
Theorem rpsd_total Fs w v N : (0 < N)%nat -> (0 < Fs)%R -> (0 < norm2 w)%R -> length w = N -> length v = N ->
  tot (fun k => rpsd Fs w v N k) (N / 2 + 1) = (INR N / Fs * (norm2 (map2 Rmult v w) / norm2 w))%R.
Proof.
  intros HN HF HW Lw Lv. set (u := map2 Rmult v w). assert (Lu : length u = N) by (unfold u; rewrite map2_length; lia).
  assert (E : forall k, rpower w v N k = pw N (fun j => rget u j) k) by (intros; reflexivity).
  rewrite (tot_ext _ (fun k => / Fs * / norm2 w * (row_factor N k * pw N (fun j => rget u j) k))%R) by (intros; unfold rpsd; rewrite E; unfold Rdiv; ring).
  rewrite tot_scal, one_sided, parseval by auto.
  assert (T : tot (fun j => rget u j * rget u j)%R N = norm2 u).
  { unfold norm2. rewrite <- tot_rsum, map_length, Lu. apply tot_ext. intros j Hj. unfold rget. rewrite get_map with (d := 0%R) by lia. reflexivity. }
  rewrite T. field. split; lra.
Qed.

(** ** the spectrogram returned by the call *)
Theorem stft_Pxx (env : stft_env XR) rsl wl thr fd (a b : nat) window Pxx fo P f c :
  uses env rsl wl window Pxx fo P f -> P <> [] -> rect c P -> length f = length P -> c <= length rsl ->
  exists r, stft_classification env rsl wl thr fd (Some (Z.of_nat a)) (Some (Z.of_nat b)) None false window Pxx fo = Ok r /\
    r_f r = f /\ length (r_Pxx r) = length P /\ forall k t, k < length P -> t < length rsl -> nget (get [] (r_Pxx r) k) t = power P (length rsl) c k t.
Proof.
  intros U NE R Lf H. destruct (uses_spec _ _ _ _ _ _ _ _ U) as [N E]. unfold stft_classification. rewrite E. cbn [bind fst snd].
  destruct (extend_ok rsl P N c NE R H) as (X & EX & LX & HX). rewrite EX. cbn [bind dry_period fst snd].
  destruct (classify_ok XRsem X f (Z.of_nat a) (Z.of_nat b) thr fd (length rsl) (power P (length rsl) c)) as (r & Er & _ & _ & E1 & E2 & _).
  - intros ->. destruct P; [congruence|discriminate].
  - lia.
  - intros k Hk. apply HX. lia.
  - exists r. split; [exact Er|]. split; auto. rewrite E1. split; auto. intros k t Hk Ht. rewrite HX by auto. unfold nget. apply get_map_seq. auto.
Qed.

Theorem stft_parseval Fs find N window rsl w thr fd (a b : nat) fo t : (0 < N)%nat -> (0 < Fs)%R -> N <= length rsl ->
  (match window with Some l => l | None => np_hamming (Z.of_nat N) end) = ofR w -> length w = N -> (exists v, In v w /\ v <> 0%R) ->
  (N - 1) / 2 <= t -> t + N <= length rsl + (N - 1) / 2 -> forall v, slice (t - (N - 1) / 2) (t - (N - 1) / 2 + N) rsl = ofR v ->
  exists r, stft_classification (mpl_env Fs find) rsl (Z.of_nat N) thr fd (Some (Z.of_nat a)) (Some (Z.of_nat b)) None false window None fo = Ok r /\
    length (r_Pxx r) = N / 2 + 1 /\
    n_sum (map (fun row => nget row t) (r_Pxx r)) = (XFin (INR N / Fs * (rsum (map (fun x => x * x)%R (map2 Rmult v w)) / rsum (map (fun x => x * x)%R w)))%R : XR).
Proof.
  intros HN HF L EW Lw NZ T1 T2 v EV.
  assert (Ft : fits N window). { destruct window as [l|]; cbn; auto. rewrite EW, ofR_length. auto. }
  assert (Lv : length v = N). { rewrite <- (ofR_length v), <- EV, slice_length; lia. }
  pose proof (norm2_pos w NZ) as WP.
  destruct (stft_Pxx (mpl_env Fs find) rsl (Z.of_nat N) thr fd a b window None fo _ _ _ (mpl_uses Fs find N window HN Ft rsl fo) (the_grid_nonempty _ _ _ _) (the_grid_rect _ _ _ _) (the_grid_rows _ _ _ _)) as (r & Er & _ & LP & HP); [lia|].
  replace (Nat.max N (length rsl) - N + 1) with (length rsl - N + 1) in HP by lia.
  assert (LG : length (the_grid Fs N window rsl) = N / 2 + 1) by (unfold the_grid, grid_of; rewrite map_length, seq_length; reflexivity).
  assert (HD : (N - 1) / 2 <= N - 1) by (apply Nat.div_le_upper_bound; lia).
  exists r. split; auto. rewrite LP, LG. split; auto.
  assert (E : map (fun row => nget row t) (r_Pxx r) = ofR (map (fun k => rpsd Fs w v N k) (seq 0 (N / 2 + 1)))).
  { apply (get_ext (n_nan : XR)); [rewrite map_length, ofR_length, map_length, seq_length; lia|]. intros k. rewrite map_length, LP, LG. intros Hk.
    rewrite (get_map _ []) by lia. rewrite HP by lia. rewrite power_window by lia. destruct (Nat.leb_spec ((N - 1) / 2) t); [|lia]. destruct (Nat.ltb_spec t ((N - 1) / 2 + (length rsl - N + 1))); [|lia]. cbn [andb].
    rewrite EW, EV, psd_R by auto. unfold ofR. rewrite map_map, get_map_seq by auto. reflexivity. }
  rewrite E, n_sum_ofR. f_equal. exact (rpsd_total Fs w v N HN HF WP Lw Lv).
Qed.

(** ** a pure tone *)
Lemma phase_sum_telescope x b n : (2 * sin (x / 2) * tot (fun k => cos (INR k * x + b)) n = sin (INR n * x + b - x / 2) - sin (b - x / 2))%R.
Proof.
  induction n as [|n IH].
  - cbn [INR]. replace (0 * x + b - x / 2)%R with (b - x / 2)%R by ring. unfold tot. cbn. ring.
  - rewrite tot_S, Rmult_plus_distr_l, IH, S_INR.
    replace ((INR n + 1) * x + b - x / 2)%R with (INR n * x + b + x / 2)%R by field. rewrite (sin_plus (INR n * x + b)), (sin_minus (INR n * x + b)). ring.
Qed.
Lemma phase_sum_zero (N q : nat) b : (0 < q < N)%nat -> tot (fun k => cos (INR k * (2 * PI * INR q / INR N) + b)) N = 0%R.
Proof.
  intros Hq. set (x := (2 * PI * INR q / INR N)%R). assert (P : (0 < INR N)%R) by (apply lt_0_INR; lia). pose proof PI_RGT_0 as HP.
  assert (NZ : (0 < sin (x / 2))%R).
  { assert (Z1 : (0 < INR q)%R) by (apply lt_0_INR; lia). assert (Z2 : (INR q < INR N)%R) by (apply lt_INR; lia).
    replace (x / 2)%R with (PI * (INR q / INR N))%R by (unfold x; field; lra).
    assert (Q : (0 < INR q / INR N < 1)%R). { split; [apply Rdiv_lt_0_compat; auto|]. apply Rmult_lt_reg_r with (INR N); auto. unfold Rdiv. rewrite Rmult_assoc, Rinv_l by lra. lra. }
    apply sin_gt_0; [apply Rmult_lt_0_compat; lra|]. rewrite <- (Rmult_1_r PI) at 2. apply Rmult_lt_compat_l; lra. }
  pose proof (phase_sum_telescope x b N) as T.
  replace (INR N * x + b - x / 2)%R with (b - x / 2 + 2 * INR q * PI)%R in T by (unfold x; field; lra). rewrite sin_period in T.
  assert (Z : (2 * sin (x / 2) * tot (fun k => cos (INR k * x + b)) N = 0)%R) by (rewrite T; ring).
  apply Rmult_integral in Z as [Z|Z]; [exfalso; lra|exact Z].
Qed.
Lemma tot_const c n : tot (fun _ => c) n = (INR n * c)%R.
Proof. induction n as [|n IH]; [cbn; ring|]. rewrite tot_S, IH, S_INR. ring. Qed.
Lemma tot_nonneg g n : (forall i, i < n -> (0 <= g i)%R) -> (0 <= tot g n)%R.
Proof. induction n as [|n IH]; intros H; [cbn; lra|]. rewrite tot_S. pose proof (H n). specialize (IH ltac:(intros; apply H; lia)). specialize (H n ltac:(lia)). lra. Qed.
Lemma tot_ge_one g i n : i < n -> (forall j, j < n -> (0 <= g j)%R) -> (g i <= tot g n)%R.
Proof.
  intros Hi H. induction n as [|n IH]; [lia|]. rewrite tot_S. destruct (Nat.eq_dec i n) as [->|NE].
  - pose proof (tot_nonneg g n ltac:(intros; apply H; lia)). lra.
  - specialize (IH ltac:(lia) ltac:(intros; apply H; lia)). pose proof (H n ltac:(lia)). lra.
Qed.
Lemma tot_ge_two g i k n : i < n -> k < n -> i <> k -> (forall j, j < n -> (0 <= g j)%R) -> (g i + g k <= tot g n)%R.
Proof.
  intros Hi Hk NE H. induction n as [|n IH]; [lia|]. rewrite tot_S.
  destruct (Nat.eq_dec i n) as [->|Ni]; [|destruct (Nat.eq_dec k n) as [->|Nk]].
  - pose proof (tot_ge_one g k n ltac:(lia) ltac:(intros; apply H; lia)). lra.
  - pose proof (tot_ge_one g i n ltac:(lia) ltac:(intros; apply H; lia)). lra.
  - specialize (IH ltac:(lia) ltac:(lia) ltac:(intros; apply H; lia)). pose proof (H n ltac:(lia)). lra.
Qed.

Section Tone.
Variables (N q : nat) (A b : R).
Hypothesis Hq : (0 < q)%nat.
Hypothesis HqN : (2 * q < N)%nat.
Let u (j : nat) : R := (A * cos (INR j * (2 * PI * INR q / INR N) + b))%R.
Lemma tone_sq : tot (fun j => u j * u j)%R N = (INR N * (A * A / 2))%R.
Proof using Hq HqN.
  rewrite (tot_ext _ (fun j => A * A / 2 + A * A / 2 * cos (INR j * (2 * PI * INR (2 * q) / INR N) + 2 * b))%R).
  - rewrite tot_add, tot_const, tot_scal, phase_sum_zero by lia. ring.
  - intros j _. unfold u. replace (INR j * (2 * PI * INR (2 * q) / INR N) + 2 * b)%R with (2 * (INR j * (2 * PI * INR q / INR N) + b))%R.
    + rewrite cos_2a_cos. field.
    + rewrite mult_INR. cbn [INR]. field. apply not_0_INR. lia.
Qed.
Lemma tone_cos : cpart N u q = (INR N * A * cos b / 2)%R.
Proof using Hq HqN.
  unfold cpart. rewrite (tot_ext _ (fun j => A * cos b / 2 + A / 2 * cos (INR j * (2 * PI * INR (2 * q) / INR N) + b))%R).
  - rewrite tot_add, tot_const, tot_scal, phase_sum_zero by lia. field.
  - intros j _. unfold u. set (y := (2 * PI * INR q * INR j / INR N)%R). replace (INR j * (2 * PI * INR q / INR N) + b)%R with (y + b)%R by (unfold y; field; apply not_0_INR; lia).
    replace (INR j * (2 * PI * INR (2 * q) / INR N) + b)%R with (y + (y + b))%R by (unfold y; rewrite mult_INR; cbn [INR]; field; apply not_0_INR; lia).
    replace (cos b) with (cos (y + b - y)) by (f_equal; ring). rewrite cos_minus, (cos_plus y (y + b)). field.
Qed.
Lemma tone_sin : spart N u q = (- (INR N * A * sin b / 2))%R.
Proof using Hq HqN.
  unfold spart. rewrite (tot_ext _ (fun j => - (A * sin b / 2) + A / 2 * cos (INR j * (2 * PI * INR (2 * q) / INR N) + (b - PI / 2)))%R).
  - rewrite tot_add, tot_const, tot_scal, phase_sum_zero by lia. field.
  - intros j _. unfold u. set (y := (2 * PI * INR q * INR j / INR N)%R). replace (INR j * (2 * PI * INR q / INR N) + b)%R with (y + b)%R by (unfold y; field; apply not_0_INR; lia).
    replace (INR j * (2 * PI * INR (2 * q) / INR N) + (b - PI / 2))%R with (- (PI / 2 - (y + (y + b))))%R by (unfold y; rewrite mult_INR; cbn [INR]; field; apply not_0_INR; lia).
    rewrite cos_neg, cos_shift. replace (sin b) with (sin (y + b - y)) by (f_equal; ring). rewrite sin_minus, (sin_plus y (y + b)). field.
Qed.
Lemma tone_pw : pw N u q = (INR N * INR N * (A * A) / 4)%R.
Proof using Hq HqN.
  unfold pw. rewrite tone_cos, tone_sin. pose proof (sin2_cos2 b) as E. unfold Rsqr in E.
  replace (INR N * A * cos b / 2 * (INR N * A * cos b / 2) + - (INR N * A * sin b / 2) * - (INR N * A * sin b / 2))%R with (INR N * INR N * (A * A) / 4 * (sin b * sin b + cos b * cos b))%R by field.
  rewrite E. ring.
Qed.
Lemma row_factor_q : row_factor N q = 2%R.
Proof using Hq HqN.
  unfold row_factor, doubled. destruct (Nat.eqb_spec q 0); [lia|]. cbn [negb andb]. destruct (Nat.even N) eqn:E; [|reflexivity].
  apply Nat.even_spec in E as [m Em]. destruct (Nat.eqb_spec q (N / 2)) as [F|F]; [|reflexivity]. exfalso. rewrite Em, (Nat.mul_comm 2), Nat.div_mul in F by lia. lia.
Qed.
Lemma row_factor_pos k : (1 <= row_factor N k)%R.
Proof using. unfold row_factor. destruct (doubled N k); lra. Qed.
Lemma pw_pos k : (0 <= pw N u k)%R.
Proof using. unfold pw. nra. Qed.
Lemma tone_rest k : k < N / 2 + 1 -> k <> q -> pw N u k = 0%R.
Proof using Hq HqN.
  intros Hk NE. assert (HN : (0 < N)%nat) by lia. pose proof (one_sided N u HN) as S. rewrite parseval, tone_sq in S by auto.
  assert (Q2 : q < N / 2 + 1). { assert (q <= N / 2) by (apply Nat.div_le_lower_bound; lia). lia. }
  pose proof (tot_ge_two (fun k => row_factor N k * pw N u k)%R k q (N / 2 + 1) Hk Q2 NE) as G. cbv beta in G. rewrite S, row_factor_q, tone_pw in G.
  assert (G' : (row_factor N k * pw N u k <= 0)%R).
  { assert (H0 : forall j, j < N / 2 + 1 -> (0 <= row_factor N j * pw N u j)%R) by (intros j _; apply Rmult_le_pos; [pose proof (row_factor_pos j); lra|apply pw_pos]). specialize (G H0). lra. }
  pose proof (row_factor_pos k). pose proof (pw_pos k). nra.
Qed.
End Tone.

Lemma norm2_ones N : norm2 (repeat 1%R N) = INR N.
Proof. unfold norm2. induction N as [|n IH]; [reflexivity|]. cbn [repeat map]. change (1 * 1 + rsum (map (fun x => x * x) (repeat 1 n)) = INR (S n))%R. rewrite IH, S_INR. ring. Qed.

(** an oscillation of [q] periods per window puts all its power in row [q] *)
Theorem stft_tone Fs find N q A b n thr fd (a c : nat) fo t : (0 < Fs)%R -> (0 < q)%nat -> 2 * q < N -> N <= n ->
  (N - 1) / 2 <= t -> t + N <= n + (N - 1) / 2 ->
  let rsl := ofR (map (fun j => A * cos (2 * PI * INR q * INR j / INR N + b))%R (seq 0 n)) in
  exists r, stft_classification (mpl_env Fs find) rsl (Z.of_nat N) thr fd (Some (Z.of_nat a)) (Some (Z.of_nat c)) None false (Some (ofR (repeat 1%R N))) None fo = Ok r /\
    length (r_Pxx r) = N / 2 + 1 /\ nget (r_f r) q = (XFin (INR q * Fs / INR N)%R : XR) /\
    nget (get [] (r_Pxx r) q) t = (XFin (A * A / 2 * (INR N / Fs))%R : XR) /\
    forall k, k < N / 2 + 1 -> k <> q -> nget (get [] (r_Pxx r) k) t = (XFin 0 : XR).
Proof.
  intros HF Hq HqN L T1 T2 rsl. assert (HN : (0 < N)%nat) by lia. assert (P : (0 < INR N)%R) by (apply lt_0_INR; lia).
  assert (Lr : length rsl = n) by (unfold rsl; rewrite ofR_length, map_length, seq_length; reflexivity).
  assert (Ft : fits N (Some (ofR (repeat 1%R N)))) by (cbn; rewrite ofR_length, repeat_length; reflexivity).
  destruct (stft_Pxx (mpl_env Fs find) rsl (Z.of_nat N) thr fd a c (Some (ofR (repeat 1%R N))) None fo _ _ _ (mpl_uses Fs find N _ HN Ft rsl fo) (the_grid_nonempty _ _ _ _) (the_grid_rect _ _ _ _) (the_grid_rows _ _ _ _)) as (r & Er & Ef & LP & HP); [lia|].
  replace (Nat.max N (length rsl) - N + 1) with (length rsl - N + 1) in HP by lia.
  assert (LG : length (the_grid Fs N (Some (ofR (repeat 1%R N))) rsl) = N / 2 + 1) by (unfold the_grid, grid_of; rewrite map_length, seq_length; reflexivity).
  assert (HD : (N - 1) / 2 <= N - 1) by (apply Nat.div_le_upper_bound; lia).
  assert (Q2 : q < N / 2 + 1). { assert (q <= N / 2) by (apply Nat.div_le_lower_bound; lia). lia. }
  set (i := t - (N - 1) / 2). set (b' := (INR i * (2 * PI * INR q / INR N) + b)%R).
  set (v := map (fun j => A * cos (INR j * (2 * PI * INR q / INR N) + b'))%R (seq 0 N)).
  assert (Lv : length v = N) by (unfold v; rewrite map_length, seq_length; reflexivity).
  assert (EV : slice i (i + N) rsl = ofR v).
  { apply (get_ext (n_nan : XR)); [rewrite slice_length, ofR_length, Lv; lia|]. intros j. rewrite slice_length by lia. intros Hj. rewrite get_slice by lia.
    unfold rsl, v, ofR. rewrite !map_map, !get_map_seq by lia. f_equal. f_equal. f_equal. rewrite plus_INR. unfold b'. field. lra. }
  assert (C : forall k, k < N / 2 + 1 -> nget (get [] (r_Pxx r) k) t = (XFin (row_factor N k * pw N (fun j => A * cos (INR j * (2 * PI * INR q / INR N) + b'))%R k / Fs / INR N)%R : XR)).
  { intros k Hk. rewrite HP by lia. rewrite power_window by lia. destruct (Nat.leb_spec ((N - 1) / 2) t); [|lia]. destruct (Nat.ltb_spec t ((N - 1) / 2 + (length rsl - N + 1))); [|lia]. cbn [andb].
    fold i. rewrite EV, psd_R; auto.
    - f_equal. unfold rpsd. rewrite norm2_ones. f_equal. f_equal. f_equal. unfold rpower.
      assert (EU : forall j, j < N -> rget (map2 Rmult v (repeat 1%R N)) j = (A * cos (INR j * (2 * PI * INR q / INR N) + b'))%R).
      { intros j Hj. unfold rget. rewrite get_map2 with (da := 0%R) (db := 0%R) by (rewrite ?repeat_length; lia). rewrite get_repeat by lia. unfold v. rewrite get_map_seq by lia. ring. }
      assert (EF : forall trig, fsum trig N (map2 Rmult v (repeat 1%R N)) k = tot (fun j => A * cos (INR j * (2 * PI * INR q / INR N) + b') * trig (2 * PI * INR k * INR j / INR N))%R N).
      { intros trig. unfold fsum. apply (tot_ext (fun j => rget (map2 Rmult v (repeat 1%R N)) j * trig (2 * PI * INR k * INR j / INR N))%R). intros j Hj. rewrite EU by auto. reflexivity. }
      rewrite !EF. reflexivity.
    - rewrite norm2_ones. auto.
    - rewrite repeat_length. auto. }
  exists r. split; [exact Er|]. split; [lia|]. split.
  - rewrite Ef. unfold the_freqs, nget. rewrite get_map_seq by auto. reflexivity.
  - split.
    + rewrite C by auto. rewrite row_factor_q, tone_pw by auto. f_equal. field. split; lra.
    + intros k Hk NE. rewrite C by auto. rewrite tone_rest by auto. f_equal. field. split; lra.
Qed.

(** ** the default window is the one numpy documents *)
Lemma hamming_doc M n : 2 <= M -> n < M -> hamming_at M n = (0.54 - 0.46 * cos (2 * PI * INR n / (INR M - 1)))%R.
Proof.
  intros HM Hn. unfold hamming_at. destruct (Nat.eqb_spec M 1); [lia|]. assert (P : (INR M - 1 <> 0)%R) by (assert (1 < INR M)%R by (apply (lt_INR 1); lia); lra).
  replace (PI * (1 - INR M + 2 * INR n) / (INR M - 1))%R with (2 * PI * INR n / (INR M - 1) - PI)%R by (field; auto).
  rewrite cos_minus, cos_PI, sin_PI. ring.
Qed.
Theorem default_window Fs find N rsl thr fd a b d mirror Pxx fo : 2 <= N ->
  stft_classification (mpl_env Fs find) rsl (Z.of_nat N) thr fd a b d mirror None Pxx fo =
  stft_classification (mpl_env Fs find) rsl (Z.of_nat N) thr fd a b d mirror (Some (ofR (map (fun n => 0.54 - 0.46 * cos (2 * PI * INR n / (INR N - 1)))%R (seq 0 N)))) Pxx fo.
Proof.
  intros HN. unfold stft_classification, spectrogram. cbn [hamming mpl_env].
  assert (E : np_hamming (Z.of_nat N) = ofR (map (fun n => 0.54 - 0.46 * cos (2 * PI * INR n / (INR N - 1)))%R (seq 0 N))).
  { unfold np_hamming, ofR. rewrite Nat2Z.id, map_map. apply map_ext_in. intros n Hn. apply in_seq in Hn. rewrite hamming_doc by lia. reflexivity. }
  rewrite E. reflexivity.
Qed.
