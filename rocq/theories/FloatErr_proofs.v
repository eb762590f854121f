(** * Errors of float64 arithmetic *)
From Coq Require Import Reals Lra Lia ZArith Bool Psatz List Permutation.
From Flocq Require Import Core Relative Plus_error IEEE754.BinarySingleNaN.
From Verif Require Import Base Num NumF64 NumList RealStat Libm Libm64 Ulp64 HaversineFloat_spec HaversineFloat_proofs HaversineFloat_proofs2 HaversineAcc_proofs FloatErr_spec.
Import ListNotations.
Local Open Scope R_scope.
Local Arguments bpow : simpl never.

(** ** single operations *)
Definition big : R := bpow radix2 1000.
Lemma big_generic : rnd64 big = big.
Proof. unfold big. apply rnd64_generic, generic_format_bpow. unfold SpecFloat.fexp, SpecFloat.emin. lia. Qed.
Lemma rnd_big r : Rabs r <= big -> Rabs (rnd64 r) <= big.
Proof. intros H. apply rnd64_abs_le; auto. apply big_generic. Qed.
Lemma is_rnd x r : f_val x = f_rnd (XFin r) -> Rabs r <= big -> is_num x (rnd64 r).
Proof.
  intros H B. unfold is_num. rewrite H. apply f_rnd_to; auto. apply Rle_lt_trans with big; [apply rnd_big; auto|]. apply bpow_lt. lia.
Qed.
Lemma is_add (x y : F64) a b : is_num x a -> is_num y b -> Rabs (a + b) <= big -> is_num (n_add x y) (rnd64 (a + b)).
Proof. intros X Y. apply is_rnd. change (n_add x y) with (f_add x y). rewrite f_val_add, X, Y. reflexivity. Qed.
Lemma is_sub (x y : F64) a b : is_num x a -> is_num y b -> Rabs (a - b) <= big -> is_num (n_sub x y) (rnd64 (a - b)).
Proof. intros X Y. apply is_rnd. change (n_sub x y) with (f_sub x y). rewrite f_val_sub, X, Y. reflexivity. Qed.
Lemma is_mul (x y : F64) a b : is_num x a -> is_num y b -> Rabs (a * b) <= big -> is_num (n_mul x y) (rnd64 (a * b)).
Proof. intros X Y. apply is_rnd. change (n_mul x y) with (f_mul x y). rewrite f_val_mul, X, Y. reflexivity. Qed.
Lemma is_div (x y : F64) a b : is_num x a -> is_num y b -> b <> 0 -> Rabs (a / b) <= big -> is_num (n_div x y) (rnd64 (a / b)).
Proof.
  intros X Y B. apply is_rnd. change (n_div x y) with (f_div x y). rewrite f_val_div by (rewrite Y; intros E; injection E; auto).
  rewrite X, Y. unfold xdiv. destruct (Req_bool_spec b 0); [contradiction|]. reflexivity.
Qed.
Lemma is_sqrt (x : F64) r : is_num x r -> 0 <= r -> sqrt r <= big -> is_num (n_sqrt x) (rnd64 (sqrt r)).
Proof.
  intros X Hr B. apply is_rnd; [|rewrite Rabs_pos_eq; auto; apply sqrt_pos].
  pose proof (val_sqrt _ F64sem x) as V. change (f_val (n_sqrt x) = f_rnd (xsqrt (f_val x))) in V. rewrite V, X. unfold xsqrt. rewrite Rlt_bool_false by lra. reflexivity.
Qed.
Lemma is_zero : is_num zero 0.
Proof. apply (num_ofZ 0). lia. Qed.
Lemma is_one : is_num one 1.
Proof. apply (num_ofZ 1). lia. Qed.
Lemma is_num_fun x r s : is_num x r -> is_num x s -> r = s.
Proof. unfold is_num. intros H K. congruence. Qed.

(** ** lists *)
Lemma are_nums_app l l' r : are_nums (l ++ l') r -> exists a b, r = a ++ b /\ are_nums l a /\ are_nums l' b.
Proof. intros H. apply Forall2_app_inv_l in H as (a & b & A & B & ->). exists a, b. auto. Qed.
Lemma are_nums_perm l l' : Permutation l l' -> forall r', are_nums l' r' -> exists r, Permutation r r' /\ are_nums l r.
Proof.
  intros P. induction P; intros r' H.
  - inversion H; subst. exists []. split; [constructor|constructor].
  - inversion H as [|? y ? s X T]; subst. destruct (IHP _ T) as (r & Q & K). exists (y :: r). split; [constructor; auto|constructor; auto].
  - inversion H as [|? a ? s X T]; subst. inversion T as [|? b ? s' X' T']; subst. exists (b :: a :: s'). split; [constructor|repeat constructor; auto].
  - destruct (IHP2 _ H) as (r & Q & K). destruct (IHP1 _ K) as (r0 & Q0 & K0). exists r0. split; [eapply perm_trans; eauto|auto].
Qed.
Lemma rsum_perm l l' : Permutation l l' -> rsum l = rsum l'.
Proof. unfold rsum. induction 1; simpl; lra. Qed.
Definition asum (r : list R) : R := rsum (map Rabs r).
Lemma asum_nonneg r : 0 <= asum r.
Proof. unfold asum. induction r; cbn [map rsum fold_right]; [lra|]. fold (rsum (map Rabs r)). pose proof (Rabs_pos a). lra. Qed.
Lemma rsum_asum r : Rabs (rsum r) <= asum r.
Proof.
  unfold asum. induction r; cbn [map rsum fold_right]; [rewrite Rabs_R0; lra|]. fold (rsum r) (rsum (map Rabs r)). eapply Rle_trans; [apply Rabs_triang|]. lra.
Qed.
Lemma asum_app a b : asum (a ++ b) = asum a + asum b.
Proof. unfold asum. rewrite map_app. apply rsum_app. Qed.

(** ** a sum in any order *)
Lemma summed_err T B K : 0 <= B <= big -> T + INR K * (u64 * B + n0) <= B ->
  forall k l x, summed k l x -> forall r, (k <= K)%nat -> are_nums l r -> asum r <= T ->
  exists s, is_num x s /\ Rabs (s - rsum r) <= INR k * (u64 * B + n0) /\ ((forall v, In v r -> 0 <= v) -> 0 <= s).
Proof.
  intros BB HB k l x H. pose proof n0_pos as NP. pose proof u64_pos as UP.
  set (e := u64 * B + n0) in *. assert (E0 : 0 <= e) by (unfold e; nra).
  induction H as [|x|j k l l' x y H1 IH1 H2 IH2|k l l' x P H IH]; intros r HK N HT.
  - inversion N; subst. exists 0. split; [apply is_zero|]. split; [cbn; rewrite Rminus_0_r, Rabs_R0; lra|intros; lra].
  - inversion N as [|? v ? s X Q]; subst. inversion Q; subst. exists v. split; auto. split; [cbn; rewrite Rplus_0_r, Rminus_eq_0, Rabs_R0; lra|intros F; apply F; left; auto].
  - apply are_nums_app in N as (a & b & -> & A & Bn). rewrite asum_app in HT. pose proof (asum_nonneg a). pose proof (asum_nonneg b).
    destruct (IH1 a ltac:(lia) A ltac:(lra)) as (s & S & ES & PS). destruct (IH2 b ltac:(lia) Bn ltac:(lra)) as (t & T' & ET & PT).
    assert (EK : INR (j + k + 1) = INR j + INR k + 1) by (rewrite !plus_INR; simpl; lra).
    assert (KK : INR j + INR k + 1 <= INR K) by (rewrite <- EK; apply le_INR; lia).
    assert (SB : Rabs (s + t) <= B).
    { replace (s + t) with ((s - rsum a) + (t - rsum b) + (rsum a + rsum b)) by ring. eapply Rle_trans; [apply Rabs_triang|].
      eapply Rle_trans; [apply Rplus_le_compat_r, Rabs_triang|]. pose proof (rsum_asum (a ++ b)) as AB. rewrite rsum_app, asum_app in AB.
      assert ((INR j + INR k) * e <= INR K * e) by (apply Rmult_le_compat_r; lra). lra. }
    exists (rnd64 (s + t)). split; [apply is_add; auto; lra|]. split.
    + rewrite rsum_app, EK. pose proof (rnd64_close (s + t)) as C. assert (u64 * Rabs (s + t) <= u64 * B) by (apply Rmult_le_compat_l; lra).
      replace (rnd64 (s + t) - (rsum a + rsum b)) with ((rnd64 (s + t) - (s + t)) + ((s - rsum a) + (t - rsum b))) by ring.
      eapply Rle_trans; [apply Rabs_triang|]. eapply Rle_trans; [apply Rplus_le_compat_l, Rabs_triang|]. unfold e in *. lra.
    + intros F. apply rnd64_nonneg. assert (0 <= s) by (apply PS; intros; apply F, in_or_app; auto). assert (0 <= t) by (apply PT; intros; apply F, in_or_app; auto). lra.
  - destruct (are_nums_perm _ _ P _ N) as (r0 & Q & N0). assert (AS : asum r0 = asum r) by (unfold asum; apply rsum_perm, Permutation_map; auto).
    destruct (IH r0 HK N0 ltac:(lra)) as (s & S & ES & PS). exists s. split; auto. split; [rewrite <- (rsum_perm _ _ Q); auto|].
    intros F. apply PS. intros v Hv. apply F. eapply Permutation_in; eauto.
Qed.

(** left to right *)
Lemma fold_summed l k l0 acc : summed k l0 acc -> summed (k + length l) (l0 ++ l) (fold_left n_add l acc).
Proof.
  revert k l0 acc. induction l as [|x l IH]; intros k l0 acc H; cbn [fold_left length].
  - rewrite app_nil_r, Nat.add_0_r. auto.
  - replace (k + S (length l))%nat with ((k + 0 + 1) + length l)%nat by lia. replace (l0 ++ x :: l) with ((l0 ++ [x]) ++ l) by (rewrite <- app_assoc; auto).
    apply IH. apply summed_add; auto. constructor.
Qed.
Lemma n_sum_sums : sums (@n_sum F64).
Proof. intros l. exists (length l). split; [auto|]. apply (fold_summed l 0 [] zero). constructor. Qed.

(** ** relative errors without limits on the size *)
Lemma closer_trans e1 n1 e2 n2 r x y : 0 <= r -> 0 <= e1 <= 1 -> 0 <= e2 <= 1 -> 0 <= n1 -> 0 <= n2 ->
  close e1 n1 r x -> close e2 n2 x y -> close (e1 + e2 + e1 * e2) (2 * n1 + n2) r y.
Proof.
  intros R E1 E2 N1 N2 (X & A) (Y & B). split; auto. assert (0 <= e1 * e2) by (apply Rmult_le_pos; lra). assert (0 <= r * e1) by (apply Rmult_le_pos; lra).
  assert (0 <= r * e2) by (apply Rmult_le_pos; lra). assert (0 <= n1 * e2 <= n1) by nra.
  assert (X1 : (r * (1 - e1) - n1) * (1 - e2) <= x * (1 - e2)) by (apply Rmult_le_compat_r; lra).
  assert (X2 : x * (1 + e2) <= (r * (1 + e1) + n1) * (1 + e2)) by (apply Rmult_le_compat_r; lra).
  replace ((r * (1 - e1) - n1) * (1 - e2)) with (r - r * e1 - r * e2 + r * (e1 * e2) - n1 + n1 * e2) in X1 by ring.
  replace ((r * (1 + e1) + n1) * (1 + e2)) with (r + r * e1 + r * e2 + r * (e1 * e2) + n1 + n1 * e2) in X2 by ring.
  assert (0 <= r * (e1 * e2)) by (apply Rmult_le_pos; lra).
  replace (r * (1 - (e1 + e2 + e1 * e2))) with (r - r * e1 - r * e2 - r * (e1 * e2)) by ring. replace (r * (1 + (e1 + e2 + e1 * e2))) with (r + r * e1 + r * e2 + r * (e1 * e2)) by ring. lra.
Qed.
Lemma close_abs e n r x : close e n r x -> Rabs (x - r) <= r * e + n.
Proof. intros (X & A). apply Rabs_le. lra. Qed.
Lemma close_div e n r x c : 0 < c -> close e n r x -> close e (n / c) (r / c) (x / c).
Proof.
  intros C (X & A). assert (I : 0 < / c) by (apply Rinv_0_lt_compat; auto). unfold Rdiv. split; [apply Rmult_le_pos; lra|].
  replace (r * / c * (1 - e) - n * / c) with ((r * (1 - e) - n) * / c) by ring. replace (r * / c * (1 + e) + n * / c) with ((r * (1 + e) + n) * / c) by ring.
  split; apply Rmult_le_compat_r; lra.
Qed.
Lemma closer_sqrt e n r x : 0 <= r -> 0 <= e <= 1 -> 0 <= n -> close e n r x -> close e (sqrt n) (sqrt r) (sqrt x).
Proof.
  intros R E N (X & A1 & A2). split; [apply sqrt_pos|]. split; [apply sqrt_lower|apply sqrt_upper]; auto; lra.
Qed.
(** a difference of two numbers has no underflow error *)
Lemma sub_rel x y a b : is_num x a -> is_num y b -> Rabs (rnd64 (a - b) - (a - b)) <= u64 * Rabs (a - b).
Proof.
  intros X Y. destruct (Rle_dec (bpow radix2 (-1022)) (Rabs (a - b))) as [H|H].
  - destruct (rnd64_rel _ H) as (d & D & ->). replace ((a - b) * (1 + d) - (a - b)) with (d * (a - b)) by ring. rewrite Rabs_mult. apply Rmult_le_compat_r; [apply Rabs_pos|auto].
  - rewrite rnd64_generic.
    + rewrite Rminus_eq_0, Rabs_R0. apply Rmult_le_pos; [apply Rlt_le, u64_pos|apply Rabs_pos].
    + assert (GX : generic_format radix2 (FLT_exp (-1074) 53) a) by (rewrite <- (num_generic _ _ X); apply rnd64_format).
      assert (GY : generic_format radix2 (FLT_exp (-1074) 53) b) by (rewrite <- (num_generic _ _ Y); apply rnd64_format).
      change (generic_format radix2 (FLT_exp (-1074) 53) (a - b)). apply (Plus_error.FLT_format_plus_small radix2 (-1074) 53); auto; [apply generic_format_opp; auto|].
      apply Rlt_le, Rlt_trans with (bpow radix2 (-1022)); [unfold Rminus in H; lra|]. apply bpow_lt. lia.
Qed.
(** a sum of numbers that are not negative *)
Lemma summed_close k l x r : summed k l x -> are_nums l r -> (forall v, In v r -> 0 <= v) -> INR k <= 2 ^ 20 -> rsum r <= 2 ^ 900 ->
  exists s, is_num x s /\ close (2 * INR k * u64) (2 * INR k * n0) (rsum r) s.
Proof.
  intros H N P K R. set (T := rsum r) in *. assert (AS : asum r = T). { unfold asum, T. f_equal. rewrite <- (map_id r) at 2. apply map_ext_in. intros a I. apply Rabs_pos_eq. auto. }
  assert (T0 : 0 <= T) by (rewrite <- AS; apply asum_nonneg). pose proof (pos_INR k) as K0. pose proof u64_pos as UP. pose proof n0_pos as NP.
  assert (KU : INR k * u64 <= / 1000000). { apply Rle_trans with (2 ^ 20 * u64); [apply Rmult_le_compat_r; lra|]. rewrite u64_val. simpl. lra. }
  assert (KU0 : 0 <= INR k * u64) by (apply Rmult_le_pos; lra). assert (KN : 0 <= INR k * n0) by (apply Rmult_le_pos; lra).
  set (B := 2 * T + 2 * (INR k * n0)). assert (EB : INR k * (u64 * B + n0) <= 2 * (INR k * u64) * T + 1.1 * (INR k * n0)).
  { unfold B. replace (INR k * (u64 * (2 * T + 2 * (INR k * n0)) + n0)) with (2 * (INR k * u64) * T + 2 * (INR k * u64) * (INR k * n0) + INR k * n0) by ring. nra. }
  assert (BB : 0 <= B <= big).
  { unfold B. split; [lra|]. assert (N20 : INR k * n0 <= 1). { apply Rle_trans with (2 ^ 20 * / 2 ^ 200); [apply Rmult_le_compat; try lra; apply n0_tiny|]. simpl. lra. }
    assert (Q : bpow radix2 900 = 2 ^ 900) by (change 900%Z with (Z.of_nat 900); change 2 with (IZR radix2); rewrite bpow_powerRZ; symmetry; apply pow_powerRZ).
    apply Rle_trans with (8 * bpow radix2 900).
    - rewrite Q. assert (1 <= 2 ^ 900) by (apply pow_R1_Rle; lra). lra.
    - unfold big. replace 8 with (bpow radix2 3) by reflexivity. rewrite <- bpow_plus. apply bpow_le. lia. }
  assert (TB : T + INR k * (u64 * B + n0) <= B). { apply Rle_trans with (T + (2 * (INR k * u64) * T + 1.1 * (INR k * n0))); [lra|]. unfold B. nra. }
  destruct (summed_err T B k BB TB k l x H r (le_n _) N ltac:(lra)) as (s & S & E & P'). fold T in E. apply Rabs_le_inv in E. exists s. split; auto. split; [apply P'; auto|].
  replace (T * (1 - 2 * INR k * u64)) with (T - 2 * (INR k * u64) * T) by ring. replace (T * (1 + 2 * INR k * u64)) with (T + 2 * (INR k * u64) * T) by ring. lra.
Qed.
