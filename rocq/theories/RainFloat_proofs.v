(** * The power law in float64 *)
From Coq Require Import Reals Lra Lia ZArith Bool Psatz List.
From Flocq Require Import Core Relative IEEE754.BinarySingleNaN.
From Verif Require Import Base Num NumF64 NumList Libm Libm64 Ulp64 KR_model KR_spec KR_proofs HaversineFloat_spec HaversineFloat_proofs HaversineFloat_proofs2 HaversineAcc_proofs FloatErr_spec FloatErr_proofs IdwFloat_proofs StatsErr_proofs RainFloat_spec.
Import ListNotations.
Local Open Scope R_scope.
Local Arguments bpow : simpl never.

(** ** exp and ln near 0 and 1 *)
Lemma exp_near t : Rabs t <= / 40 -> Rabs (exp t - 1) <= 1.03 * Rabs t.
Proof.
  intros H. apply Rabs_le_inv in H. pose proof (exp_ineq1_le t) as E1. pose proof (exp_ineq1_le (- t)) as E2. rewrite exp_Ropp in E2. pose proof (exp_pos t) as P.
  assert (U : exp t * (1 - t) <= 1). { apply Rmult_le_reg_r with (/ exp t); [apply Rinv_0_lt_compat; auto|]. rewrite Rmult_1_l. replace (exp t * (1 - t) * / exp t) with ((1 - t) * (exp t * / exp t)) by ring. rewrite Rinv_r by lra. lra. }
  apply Rabs_le. destruct (Rle_dec 0 t).
  - rewrite (Rabs_pos_eq t) by auto. split; [lra|]. nra.
  - rewrite (Rabs_left t) by lra. split; [lra|]. nra.
Qed.
Lemma ln_le1 x : 0 < x -> ln x <= x - 1.
Proof. intros H. pose proof (exp_ineq1_le (ln x)) as E. rewrite exp_ln in E; lra. Qed.
Lemma ln_near h : Rabs h <= / 90 -> Rabs (ln (1 + h)) <= 1.02 * Rabs h.
Proof.
  intros H. apply Rabs_le_inv in H. pose proof (ln_le1 (1 + h) ltac:(lra)) as U. assert (P : 0 < / (1 + h)) by (apply Rinv_0_lt_compat; lra).
  pose proof (ln_le1 _ P) as D. rewrite ln_Rinv in D by lra. assert (E : (1 + h) * / (1 + h) = 1) by (apply Rinv_r; lra).
  apply Rabs_le. destruct (Rle_dec 0 h).
  - rewrite (Rabs_pos_eq h) by auto. split; nra.
  - rewrite (Rabs_left h) by lra. split; nra.
Qed.
Lemma ln_le x y : 0 < x -> x <= y -> ln x <= ln y.
Proof. intros P [H| ->]; [left; apply ln_increasing; auto|right; auto]. Qed.
Lemma ln2_le : 0 < ln 2 <= 1.
Proof. split; [rewrite <- ln_1; apply ln_increasing; lra|]. pose proof (ln_le1 2 ltac:(lra)). lra. Qed.
Lemma ln_pow2 n : ln (2 ^ n) = INR n * ln 2.
Proof. apply ln_pow. lra. Qed.
Lemma ln_range n r : / 2 ^ n <= r <= 2 ^ n -> Rabs (ln r) <= INR n.
Proof.
  intros H. pose proof (pow_lt 2 n ltac:(lra)) as P. assert (Q : 0 < / 2 ^ n) by (apply Rinv_0_lt_compat; auto). pose proof ln2_le. pose proof (pos_INR n).
  assert (B : INR n * ln 2 <= INR n) by nra. apply Rabs_le. split.
  - apply Rle_trans with (ln (/ 2 ^ n)); [rewrite ln_Rinv, ln_pow2 by auto; lra|]. apply ln_le; lra.
  - apply Rle_trans with (ln (2 ^ n)); [apply ln_le; lra|]. rewrite ln_pow2. lra.
Qed.
(** ** the power of a perturbed base and exponent *)
Lemma power_perturbed r b h ep : / 2 ^ 20 <= r <= 2 ^ 20 -> / 2 <= b <= 2 -> Rabs h <= / 90 -> Rabs ep <= u64 ->
  exists t, Rpower (Rpower r b * (1 + h)) ((1 + ep) / b) = r * (1 + t) /\ Rabs t <= 21 * u64 + 1.06 * Rabs h / b.
Proof.
  intros HR HB HH HE. pose proof u64_pos as UP. assert (U6 : u64 <= / 1000000) by (rewrite u64_val; simpl; lra).
  pose proof (pow_lt 2 20 ltac:(lra)) as P20. assert (Q20 : 0 < / 2 ^ 20) by (apply Rinv_0_lt_compat; auto).
  pose proof (ln_range 20 r HR) as LR. replace (INR 20) with 20 in LR by (simpl; lra). assert (H1 : 0 < 1 + h) by (apply Rabs_le_inv in HH; lra).
  set (s := ep * ln r + (1 + ep) / b * ln (1 + h)).
  assert (E : Rpower (Rpower r b * (1 + h)) ((1 + ep) / b) = r * exp s).
  { unfold Rpower at 1. rewrite ln_mult; [|apply Rpower_pos|auto]. unfold Rpower at 1. rewrite ln_exp.
    replace ((1 + ep) / b * (b * ln r + ln (1 + h))) with (ln r + s) by (unfold s; field; lra). rewrite exp_plus, exp_ln by lra. reflexivity. }
  exists (exp s - 1). split; [rewrite E; ring|].
  pose proof (ln_near h HH) as LH. pose proof (Rabs_pos h) as H0.
  assert (IB : 0 < / b <= 2). { split; [apply Rinv_0_lt_compat; lra|]. replace 2 with (/ / 2) by lra. apply Rinv_le_contravar; lra. }
  assert (S1 : Rabs s <= 20 * u64 + 1.0201 * (Rabs h / b)).
  { unfold s. eapply Rle_trans; [apply Rabs_triang|]. rewrite !Rabs_mult. apply Rplus_le_compat.
    - rewrite Rmult_comm. apply Rmult_le_compat; auto; apply Rabs_pos.
    - unfold Rdiv. rewrite Rabs_mult, (Rabs_pos_eq (/ b)) by lra. assert (A1 : Rabs (1 + ep) <= 1.000001) by (apply Rabs_le_inv in HE; apply Rabs_le; lra).
      apply Rle_trans with (1.000001 * / b * (1.02 * Rabs h)); [|nra]. apply Rmult_le_compat; auto; [apply Rmult_le_pos; [apply Rabs_pos|lra]|apply Rabs_pos|apply Rmult_le_compat_r; lra]. }
  assert (HB2 : 0 <= Rabs h / b <= 2 / 90). { unfold Rdiv. split; [apply Rmult_le_pos; lra|]. rewrite Rmult_comm. apply Rmult_le_compat; lra. }
  pose proof (exp_near s ltac:(lra)). replace (1.06 * Rabs h / b) with (1.06 * (Rabs h / b)) by (unfold Rdiv; ring). lra.
Qed.

(** ** one attenuation *)
Section One.
Variables (L : libm F64) (e : R).
Hypothesis acc : pow_accurate L e.
Hypothesis e_small : 0 <= e <= / 1000.
Variables (a b l m : F64) (va vb vl vm : R).
Hypothesis (ia : is_num a va) (ib : is_num b vb) (il : is_num l vl) (im : is_num m vm).
Hypothesis (ra : / 2 ^ 60 <= va <= 2 ^ 60) (rl : / 2 ^ 60 <= vl <= 2 ^ 60) (rb : / 2 <= vb <= 2).

Lemma norm r : 0 < r -> / 2 ^ 300 <= r -> exists d, Rabs d <= u64 /\ rnd64 r = r * (1 + d).
Proof using.
  intros P H. apply rnd64_rel. rewrite Rabs_pos_eq by lra. apply Rle_trans with (2 := H). apply Rle_trans with (bpow radix2 (-300)); [apply bpow_le; lia|].
  change (-300)%Z with (- (300))%Z. rewrite bpow_opp. replace (bpow radix2 300) with (2 ^ 300) by (rewrite <- (pow_bpow 300); f_equal). lra.
Qed.
Lemma inv_mul_pow i j : / 2 ^ i * / 2 ^ j = / 2 ^ (i + j).
Proof using. rewrite pow_add, Rinv_mult. reflexivity. Qed.
Lemma pow2_pos n : 0 < 2 ^ n.
Proof using. apply pow_lt. lra. Qed.
Lemma ipow2_pos n : 0 < / 2 ^ n.
Proof using. apply Rinv_0_lt_compat, pow2_pos. Qed.
Lemma mul_range i j x y : / 2 ^ i <= x <= 2 ^ i -> / 2 ^ j <= y <= 2 ^ j -> / 2 ^ (i + j) <= x * y <= 2 ^ (i + j).
Proof using. intros X Y. pose proof (ipow2_pos i). pose proof (ipow2_pos j). rewrite <- inv_mul_pow, pow_add. split; apply Rmult_le_compat; lra. Qed.
Lemma range_pos i x : / 2 ^ i <= x -> 0 < x.
Proof using. intros. pose proof (ipow2_pos i). lra. Qed.

Lemma product_num : exists d, Rabs d <= u64 /\ is_num (n_mul a l) (va * vl * (1 + d)).
Proof using ia il ra rl.
  pose proof (mul_range 60 60 va vl ra rl) as R. assert (P : 0 < va * vl) by (apply (range_pos (60 + 60)); lra).
  assert (Q : / 2 ^ 300 <= / 2 ^ (60 + 60)) by (apply Rinv_le_contravar; [apply pow2_pos|apply Rle_pow; [lra|lia]]).
  destruct (norm (va * vl) P ltac:(lra)) as (d & D & E). exists d. split; auto. rewrite <- E. apply is_mul; auto. rewrite Rabs_pos_eq by lra. apply Rle_trans with (2 ^ (60 + 60)); [lra|apply pow_big; lia].
Qed.
Lemma inverse_num : exists d, Rabs d <= u64 /\ is_num (n_div one b) ((1 + d) / vb).
Proof using ib rb.
  assert (P : / 2 <= 1 / vb <= 2). { unfold Rdiv. rewrite Rmult_1_l. split; [apply Rinv_le_contravar; lra|]. replace 2 with (/ / 2) by lra. apply Rinv_le_contravar; lra. }
  assert (Q : / 2 ^ 300 <= / 2 ^ 1) by (apply Rinv_le_contravar; [apply pow2_pos|apply Rle_pow; [lra|lia]]). replace (/ 2 ^ 1) with (/ 2) in Q by (simpl; lra).
  destruct (norm (1 / vb) ltac:(lra) ltac:(lra)) as (d & D & E). exists d. split; auto. replace ((1 + d) / vb) with (1 / vb * (1 + d)) by (unfold Rdiv; ring). rewrite <- E.
  apply is_div; [apply is_one|auto|lra|]. rewrite Rabs_pos_eq by lra. apply Rle_trans with (2 ^ 1); [simpl; lra|apply pow_big; lia].
Qed.
Definition err (d r : R) : R := (e + / 2 ^ 48 + 11 / 10 * d / vb) * r.
Lemma rpower_range r : / 2 ^ 20 <= r <= 2 ^ 20 -> / 2 ^ 40 <= Rpower r vb <= 2 ^ 40.
Proof using rb.
  intros H. pose proof (ln_range 20 r H) as LR. pose proof (range_pos 20 r (proj1 H)) as P.
  assert (K : forall x, 0 < x -> x = exp (ln x)) by (intros; rewrite exp_ln; auto).
  rewrite (K (2 ^ 40) (pow2_pos 40)), <- exp_Ropp, ln_pow2. unfold Rpower. 
  assert (M : Rabs (ln r) <= 20 * ln 2).
  { pose proof (pow2_pos 20). pose proof (ipow2_pos 20). replace 20 with (INR 20) by (simpl; lra). rewrite <- ln_pow2. apply Rabs_le. split; [rewrite <- ln_Rinv by auto; apply ln_le; lra|apply ln_le; lra]. }
  pose proof ln2_le. replace (INR 40) with 40 by (simpl; lra). apply Rabs_le_inv in M.
  assert (XE : forall x y, x <= y -> exp x <= exp y) by (intros x y [Q|Q]; [left; apply exp_increasing; auto|rewrite Q; lra]).
  split; apply XE; nra.
Qed.
Lemma quotient_num d r y (x : F64) : 0 <= d <= / 100 -> is_num x y -> / 2 ^ 20 <= r <= 2 ^ 20 -> Rabs (y - va * Rpower r vb * vl) <= d * (va * Rpower r vb * vl) ->
  0 < y /\ exists h, Rabs h <= d + 3 * u64 /\ is_num (n_div x (n_mul a l)) (Rpower r vb * (1 + h)).
Proof using ia il ra rl rb.
  intros HD IX HR HY. destruct product_num as (d1 & D1 & IP). pose proof (rpower_range r HR) as RP. set (q := Rpower r vb) in *.
  pose proof (mul_range 60 60 va vl ra rl) as RM. assert (P : 0 < va * vl) by (apply (range_pos (60 + 60)); lra). assert (Q0 : 0 < q) by (apply (range_pos 40); lra).
  pose proof u64_pos as UP. assert (U6 : u64 <= / 1000000) by (rewrite u64_val; simpl; lra).
  set (g := y / (va * vl * q) - 1). assert (PQ : 0 < va * vl * q) by (apply Rmult_lt_0_compat; auto).
  assert (YE : y = va * vl * q * (1 + g)) by (unfold g; field; lra).
  assert (G : Rabs g <= d). { apply Rmult_le_reg_r with (va * vl * q); auto. rewrite <- (Rabs_pos_eq (va * vl * q)) at 1 by lra. rewrite <- Rabs_mult. replace (g * (va * vl * q)) with (y - va * q * vl) by (rewrite YE; ring). replace (d * (va * vl * q)) with (d * (va * q * vl)) by ring. exact HY. }
  apply Rabs_le_inv in G. apply Rabs_le_inv in D1.
  assert (Y0 : 0 < y) by (rewrite YE; apply Rmult_lt_0_compat; lra). split; auto.
  set (h0 := (1 + g) / (1 + d1) - 1). assert (E0 : y / (va * vl * (1 + d1)) = q * (1 + h0)) by (unfold h0; rewrite YE; field; split; nra).
  assert (EH : (1 + h0) * (1 + d1) = 1 + g) by (unfold h0; field; lra).
  assert (H0 : Rabs h0 <= d + 1.5 * u64) by (apply Rabs_le; split; nra). apply Rabs_le_inv in H0.
  assert (QH : / 2 ^ 300 <= q * (1 + h0) <= 2 ^ 900).
  { assert (/ 2 ^ 300 <= / 2 ^ 41) by (apply Rinv_le_contravar; [apply pow2_pos|apply Rle_pow; [lra|lia]]). assert (2 ^ 41 <= 2 ^ 900) by (apply Rle_pow; [lra|lia]).
    assert (E41 : 2 ^ 41 = 2 * 2 ^ 40) by (change 41%nat with (Datatypes.S 40); reflexivity). assert (I41 : / 2 ^ 41 = / 2 * / 2 ^ 40) by (rewrite E41, Rinv_mult; reflexivity).
    pose proof (ipow2_pos 40). pose proof (pow2_pos 40). split; nra. }
  destruct (norm (q * (1 + h0)) ltac:(apply (range_pos 300); lra) (proj1 QH)) as (d2 & D2 & E2). apply Rabs_le_inv in D2.
  exists ((1 + h0) * (1 + d2) - 1). split.
  { assert (HD2 : Rabs (h0 * d2) <= 0.1 * u64). { rewrite Rabs_mult. apply Rmult_le_compat; try apply Rabs_pos; apply Rabs_le; lra. } apply Rabs_le_inv in HD2.
    replace ((1 + h0) * (1 + d2) - 1) with (h0 + d2 + h0 * d2) by ring. apply Rabs_le. lra. }
  replace (q * (1 + ((1 + h0) * (1 + d2) - 1))) with (q * (1 + h0) * (1 + d2)) by ring. rewrite <- E2, <- E0. apply is_div; auto; [apply Rgt_not_eq, Rmult_lt_0_compat; lra|]. rewrite E0, Rabs_pos_eq by (apply Rlt_le, (range_pos 300); lra). apply Rle_trans with (1 := proj2 QH), pow_big. lia.
Qed.
Lemma pow_close d r y (x : F64) : 0 <= d <= / 100 -> is_num x y -> / 2 ^ 20 <= r <= 2 ^ 20 -> Rabs (y - va * Rpower r vb * vl) <= d * (va * Rpower r vb * vl) ->
  0 < y /\ exists v, is_num (m_pow L (n_div x (n_mul a l)) (n_div one b)) v /\ Rabs (v - r) <= err d r.
Proof using acc e_small ia ib il ra rl rb.
  intros HD IX HR HY. destruct (quotient_num d r y x HD IX HR HY) as (Y0 & h & H & IQ). split; auto. destruct inverse_num as (ep & E & II).
  pose proof u64_pos as UP. assert (U6 : u64 <= / 1000000) by (rewrite u64_val; simpl; lra).
  destruct (power_perturbed r vb h ep HR rb ltac:(lra) E) as (t & ET & T).
  pose proof (range_pos 20 r (proj1 HR)) as R0. pose proof (rpower_range r HR) as RP. assert (Q0 : 0 < Rpower r vb) by (apply (range_pos 40); lra).
  assert (IB : 0 < / vb <= 2). { split; [apply Rinv_0_lt_compat; lra|]. replace 2 with (/ / 2) by lra. apply Rinv_le_contravar; lra. }
  assert (T2 : Rabs t <= 28 * u64 + 1.06 * (d * / vb)).
  { apply Rle_trans with (1 := T). unfold Rdiv. rewrite Rmult_assoc. assert (Rabs h * / vb <= (d + 3 * u64) * / vb) by (apply Rmult_le_compat_r; lra). nra. }
  assert (DB : 0 <= d * / vb <= 2 / 100) by (split; [apply Rmult_le_pos; lra|]; nra).
  assert (TS : Rabs t <= / 40) by lra.
  assert (RT : / 2 ^ 300 <= r * (1 + t) <= 2 ^ 300).
  { apply Rabs_le_inv in TS. assert (/ 2 ^ 300 <= / 2 ^ 21) by (apply Rinv_le_contravar; [apply pow2_pos|apply Rle_pow; [lra|lia]]). assert (2 ^ 21 <= 2 ^ 300) by (apply Rle_pow; [lra|lia]).
    assert (E21 : 2 ^ 21 = 2 * 2 ^ 20) by (change 21%nat with (Datatypes.S 20); reflexivity). assert (I21 : / 2 ^ 21 = / 2 * / 2 ^ 20) by (rewrite E21, Rinv_mult; reflexivity).
    pose proof (ipow2_pos 20). pose proof (pow2_pos 20). split; nra. }
  assert (B0 : 0 < Rpower r vb * (1 + h)) by (apply Rmult_lt_0_compat; auto; apply Rabs_le_inv in H; lra).
  rewrite <- ET in RT. destruct (pa_pos L e acc _ _ _ _ IQ II B0 RT) as (v & V & C). exists v. split; auto.
  rewrite ET in C. unfold err. replace (v - r) with ((v - r * (1 + t)) + r * t) by ring. eapply Rle_trans; [apply Rabs_triang|]. rewrite (Rabs_mult r t), (Rabs_pos_eq r) by lra.
  assert (P48 : / 2 ^ 48 = 32 * u64). { rewrite u64_val. simpl. lra. }
  assert (ER : e * (r * (1 + t)) <= e * r + 0.001 * (r * Rabs t)). { replace (e * (r * (1 + t))) with (e * r + e * (r * t)) by ring. apply Rplus_le_compat_l. pose proof (Rle_abs t). assert (0 <= r * Rabs t) by (apply Rmult_le_pos; [lra|apply Rabs_pos]). assert (r * t <= r * Rabs t) by (apply Rmult_le_compat_l; lra). apply Rle_trans with (e * (r * Rabs t)); [apply Rmult_le_compat_l; lra|apply Rmult_le_compat_r; lra]. }
  assert (RT2 : r * Rabs t <= r * (28 * u64 + 1.06 * (d * / vb))) by (apply Rmult_le_compat_l; lra).
  rewrite P48. replace (11 / 10 * d / vb) with (1.1 * (d * / vb)) by (unfold Rdiv; lra). assert (0 <= r * (d * / vb)) by (apply Rmult_le_pos; lra). assert (0 <= r * u64) by (apply Rmult_le_pos; lra).
  replace ((e + 32 * u64 + 1.1 * (d * / vb)) * r) with (e * r + 32 * (r * u64) + 1.1 * (r * (d * / vb))) by ring. replace (r * (28 * u64 + 1.06 * (d * / vb))) with (28 * (r * u64) + 1.06 * (r * (d * / vb))) in RT2 by ring. lra.
Qed.
Lemma num_leb (x y : F64) p q : is_num x p -> is_num y q -> n_leb x y = Rle_bool p q.
Proof using. intros X Y. pose proof (val_leb _ F64sem x y) as V. change (n_leb x y = xleb (f_val x) (f_val y)) in V. rewrite V, X, Y. reflexivity. Qed.
Lemma power_num d r y (x : F64) : 0 <= d <= / 100 -> is_num x y -> (r = 0 /\ y = 0 \/ / 2 ^ 20 <= r <= 2 ^ 20 /\ Rabs (y - va * Rpower r vb * vl) <= d * (va * Rpower r vb * vl)) ->
  0 <= y /\ exists v, is_num (m_pow L (n_div x (n_mul a l)) (n_div one b)) v /\ Rabs (v - r) <= err d r.
Proof using acc e_small ia ib il ra rl rb.
  intros HD IX C.
    destruct C as [(-> & ->)|(HR & HY)].
    - split; [lra|]. exists 0. split; [|unfold err; rewrite Rmult_0_r, Rminus_0_r, Rabs_R0; lra].
      destruct product_num as (d1 & D1 & IP). destruct inverse_num as (ep & E & II). apply Rabs_le_inv in D1, E. pose proof u64_small as US.
      pose proof (mul_range 60 60 va vl ra rl) as RM. assert (P : 0 < va * vl) by (apply (range_pos (60 + 60)); lra).
      apply (pa_zero L e acc _ _ ((1 + ep) / vb)); auto; [|apply Rdiv_lt_0_compat; lra].
      pose proof (is_div x _ 0 _ IX IP) as D. replace (0 / (va * vl * (1 + d1))) with 0 in D by (unfold Rdiv; ring). rewrite rnd64_0 in D. apply D; [apply Rgt_not_eq, Rmult_lt_0_compat; lra|]. rewrite Rabs_R0. apply Rlt_le, bpow_gt_0.
    - destruct (pow_close d r y x HD IX HR HY) as (Y0 & v & V). split; [lra|]. exists v. auto.
Qed.
Lemma rate_close d r (x : F64) : 0 <= d <= / 100 -> 0 <= r -> caused_by d va vb vl r x -> retrieved (err d r) vm r (rate L (n_mul a l) (n_div one b) m x).
Proof using acc e_small ia ib il im ra rl rb.
  intros HD R0 (y & IX & C). assert (NN : n_isnan x = false). { pose proof (val_isnan _ F64sem x) as V. change (n_isnan x = xisnan (f_val x)) in V. rewrite V, IX. reflexivity. }
  pose proof (power_num d r y x HD IX C) as PW.
  destruct PW as (Y0 & v & IV & CV). unfold rate. rewrite NN, (num_leb _ _ 0 y is_zero IX), Rle_bool_true by auto. cbv zeta. rewrite (num_ltb _ _ v vm IV im).
  destruct (Rlt_bool_spec v vm).
  - exists 0. split; [apply is_zero|]. split; [auto|]. apply Rabs_le_inv in CV. split; [intros; lra|auto].
  - exists v. split; auto. split; [auto|]. split; [auto|]. apply Rabs_le_inv in CV. intros. lra.
Qed.
End One.

(** ** a correctly rounded library *)
Lemma F64cr_pow_accurate : pow_accurate F64cr u64.
Proof.
  constructor.
  - intros x y c X Y C. change (f_val (f_of_xr (xpow (f_val x) (f_val y))) = XFin 0). rewrite f_of_xr_val, X, Y, xpow_0 by auto. cbn [f_rnd].
    rewrite rnd64_0, Rabs_R0, Rlt_bool_true by apply bpow_gt_0. reflexivity.
  - intros x y a c X Y A B. pose proof (range_pos 300 _ (proj1 B)) as P. destruct (norm _ P (proj1 B)) as (d & D & E). exists (rnd64 (Rpower a c)). split.
    + apply is_rnd; [|rewrite Rabs_pos_eq by lra; apply Rle_trans with (1 := proj2 B), pow_big; lia].
      change (f_val (f_of_xr (xpow (f_val x) (f_val y))) = f_rnd (XFin (Rpower a c))). rewrite f_of_xr_val, X, Y, xpow_pos by auto. reflexivity.
    + rewrite E. replace (Rpower a c * (1 + d) - Rpower a c) with (d * Rpower a c) by ring. rewrite Rabs_mult, (Rabs_pos_eq (Rpower a c)) by lra. apply Rmult_le_compat_r; lra.
Qed.
Lemma calc_close (L : libm F64) cubic e a b l m va vb vl vm A Rs d ap : pow_accurate L e -> 0 <= e <= / 1000 ->
  is_num a va -> is_num b vb -> is_num l vl -> is_num m vm -> / 2 ^ 60 <= va <= 2 ^ 60 -> / 2 ^ 60 <= vl <= 2 ^ 60 -> / 2 <= vb <= 2 -> 0 <= d <= / 100 ->
  Forall2 (caused_by d va vb vl) Rs A ->
  exists rain, calc_R_from_A L cubic A l None None (Some (CScalar a)) (Some (CScalar b)) ap m = Ok rain /\
  Forall2 (fun r x => retrieved ((e + / 2 ^ 48 + 11 / 10 * d / vb) * r) vm r x) Rs rain.
Proof.
  intros HL He IA IB IL IM RA RL RB HD HF. rewrite (calc_scalar F64sem).
  2:{ unfold KR_spec.positive. rewrite (num_ltb _ _ 0 vb); [apply Rlt_bool_true; lra|apply (num_ofZ 0); lia|auto]. }
  eexists. split; [reflexivity|]. induction HF as [|r x Rs A H _ IH]; [constructor|]. constructor; [|exact IH].
  apply (rate_close L e HL He a b l m va vb vl vm); auto. destruct H as (y & _ & [(-> & _)|(R & _)]); [lra|]. apply Rlt_le, (range_pos 20). lra.
Qed.
