(** * Accuracy of the haversine distance in binary64 *)
From Coq Require Import Reals Lra Lia ZArith Bool Psatz Ratan.
From Flocq Require Import Core Relative IEEE754.BinarySingleNaN.
From Verif Require Import Base Num NumF64 NumList Libm Libm64 Ulp64 Haversine_model HaversineFloat_spec HaversineFloat_proofs HaversineFloat_proofs2.
Local Open Scope R_scope.
Local Arguments bpow : simpl never.

(** ** Lipschitz bounds *)
Lemma sin_lip x y : Rabs (sin x - sin y) <= Rabs (x - y).
Proof.
  rewrite form4, Rabs_mult. replace (Rabs (2 * cos ((x + y) / 2)) * Rabs (sin ((x - y) / 2))) with (Rabs (cos ((x + y) / 2)) * (2 * Rabs (sin ((x - y) / 2)))).
  2: { rewrite Rabs_mult, (Rabs_pos_eq 2) by lra. ring. }
  assert (C : Rabs (cos ((x + y) / 2)) <= 1) by (apply Rabs_le, COS_bound). pose proof (sin_le_arg ((x - y) / 2)) as S.
  replace (Rabs ((x - y) / 2)) with (Rabs (x - y) / 2) in S by (unfold Rdiv; rewrite Rabs_mult, (Rabs_pos_eq (/ 2)) by lra; auto).
  pose proof (Rabs_pos (sin ((x - y) / 2))). pose proof (Rabs_pos (cos ((x + y) / 2))). nra.
Qed.
Lemma cos_lip x y : Rabs (cos x - cos y) <= Rabs (x - y).
Proof.
  rewrite <- !sin_shift. eapply Rle_trans; [apply sin_lip|]. apply Req_le. rewrite <- Rabs_Ropp. f_equal. ring.
Qed.
Lemma atan_lip x y : Rabs (atan x - atan y) <= Rabs (x - y).
Proof.
  assert (P : forall a b, a < b -> Rabs (atan b - atan a) <= b - a).
  { intros a b H. destruct (MVT_cor2 atan (fun c => / (1 + c * c)) a b H) as (c & E & _).
    - intros c _. pose proof (derivable_pt_lim_atan c) as D. replace (/ (1 + c * c)) with (/ (1 + c ^ 2)) by (f_equal; ring). exact D.
    - rewrite E. assert (0 < / (1 + c * c) <= 1). { pose proof (Rle_0_sqr c) as Q. unfold Rsqr in Q. split; [apply Rinv_0_lt_compat; lra|]. rewrite <- Rinv_1 at 2. apply Rinv_le; lra. }
      rewrite Rabs_pos_eq; nra. }
  destruct (Rtotal_order x y) as [H|[->|H]].
  - rewrite <- Rabs_Ropp, (Rabs_left (x - y)) by lra. replace (- (atan x - atan y)) with (atan y - atan x) by ring. replace (- (x - y)) with (y - x) by ring. auto.
  - rewrite !Rminus_eq_0. lra.
  - rewrite (Rabs_pos_eq (x - y)) by lra. auto.
Qed.
(** ** square roots *)
Lemma sqrt_upper x y e n : 0 <= x -> 0 <= y -> 0 <= e -> 0 <= n -> x <= y * (1 + e) + n -> sqrt x <= sqrt y * (1 + e) + sqrt n.
Proof.
  intros Hx Hy He Hn H. pose proof (sqrt_pos y) as Y. pose proof (sqrt_pos n) as N. pose proof (sqrt_sqrt y Hy) as YY. pose proof (sqrt_sqrt n Hn) as NN.
  assert (P : 0 <= sqrt y * (1 + e) + sqrt n) by nra.
  rewrite <- (sqrt_square (sqrt y * (1 + e) + sqrt n)) by auto. apply sqrt_le_1_alt.
  assert (0 <= sqrt y * sqrt n) by (apply Rmult_le_pos; auto). set (s := sqrt y) in *. set (m := sqrt n) in *. clearbody s m.
  assert (0 <= s * s * e) by (apply Rmult_le_pos; [nra|auto]). assert (0 <= s * s * e * e) by (apply Rmult_le_pos; auto). assert (0 <= s * m * e) by (apply Rmult_le_pos; auto). nra.
Qed.
Lemma sqrt_lower x y e n : 0 <= x -> 0 <= y -> 0 <= e <= 1 -> 0 <= n -> y * (1 - e) - n <= x -> sqrt y * (1 - e) - sqrt n <= sqrt x.
Proof.
  intros Hx Hy He Hn H. pose proof (sqrt_pos y) as Y. pose proof (sqrt_pos n) as N. pose proof (sqrt_pos x) as X.
  pose proof (sqrt_sqrt y Hy) as YY. pose proof (sqrt_sqrt n Hn) as NN. pose proof (sqrt_sqrt x Hx) as XX.
  assert (Q : sqrt y * (1 - e) <= sqrt x + sqrt n); [|lra].
  apply Rsqr_incr_0_var; [|lra]. unfold Rsqr. assert (0 <= sqrt x * sqrt n) by (apply Rmult_le_pos; auto).
  set (s := sqrt y) in *. set (m := sqrt n) in *. set (t := sqrt x) in *. clearbody s m t.
  assert (s * (1 - e) * (s * (1 - e)) <= s * s * (1 - e)). { assert (0 <= s * s * (1 - e) * e) by (apply Rmult_le_pos; [apply Rmult_le_pos; [nra|lra]|lra]). nra. }
  nra.
Qed.
(** length of a vector *)
Lemma norm_close x y x' y' g : 0 <= g <= 1 -> Rabs (sqrt (x * x + g * (y * y)) - sqrt (x' * x' + g * (y' * y'))) <= Rabs (x - x') + Rabs (y - y').
Proof.
  intros G. 
  assert (T : forall x y x' y', sqrt (x * x + g * (y * y)) <= sqrt (x' * x' + g * (y' * y')) + (Rabs (x - x') + Rabs (y - y'))).
  { clear x y x' y'. intros x y x' y'. pose proof (Rabs_pos (x - x')) as P1. pose proof (Rabs_pos (y - y')) as P2.
    assert (N0 : 0 <= x' * x' + g * (y' * y')) by nra. pose proof (sqrt_pos (x' * x' + g * (y' * y'))) as P3. pose proof (sqrt_sqrt _ N0) as E.
    set (n := sqrt (x' * x' + g * (y' * y'))) in *.
    assert (X : Rabs x' <= n). { unfold n. rewrite <- sqrt_Rsqr_abs. apply sqrt_le_1_alt. unfold Rsqr. nra. }
    assert (YB : g * Rabs y' <= n). { unfold n. rewrite <- (sqrt_square (g * Rabs y')) by (apply Rmult_le_pos; [lra|apply Rabs_pos]). apply sqrt_le_1_alt.
      assert (Rabs y' * Rabs y' = y' * y') by (rewrite <- Rabs_mult; apply Rabs_pos_eq; nra). nra. }
    clearbody n. rewrite <- (sqrt_square (n + (Rabs (x - x') + Rabs (y - y')))) by lra. apply sqrt_le_1_alt.
    assert (EX : x * x <= x' * x' + 2 * Rabs x' * Rabs (x - x') + Rabs (x - x') * Rabs (x - x')).
    { assert (A1 : x' * (x - x') <= Rabs x' * Rabs (x - x')) by (rewrite <- Rabs_mult; apply Rle_abs).
      assert (A2 : (x - x') * (x - x') = Rabs (x - x') * Rabs (x - x')) by (rewrite <- Rabs_mult; symmetry; apply Rabs_pos_eq; apply Rle_0_sqr). rewrite <- A2. nra. }
    assert (EY : y * y <= y' * y' + 2 * Rabs y' * Rabs (y - y') + Rabs (y - y') * Rabs (y - y')).
    { assert (A1 : y' * (y - y') <= Rabs y' * Rabs (y - y')) by (rewrite <- Rabs_mult; apply Rle_abs).
      assert (A2 : (y - y') * (y - y') = Rabs (y - y') * Rabs (y - y')) by (rewrite <- Rabs_mult; symmetry; apply Rabs_pos_eq; apply Rle_0_sqr). rewrite <- A2. nra. }
    set (d1 := Rabs (x - x')) in *. set (d2 := Rabs (y - y')) in *. set (ax := Rabs x') in *. set (ay := Rabs y') in *. clearbody d1 d2.
    assert (GY : g * (y * y) <= g * (y' * y') + 2 * (g * ay) * d2 + g * (d2 * d2)) by nra.
    assert (ax * d1 <= n * d1) by (apply Rmult_le_compat_r; auto). assert (g * ay * d2 <= n * d2) by (apply Rmult_le_compat_r; auto).
    assert (0 <= d1 * d2) by (apply Rmult_le_pos; auto). assert (g * (d2 * d2) <= d2 * d2) by nra. nra. }
  apply Rabs_le. pose proof (T x y x' y'). pose proof (T x' y' x y). rewrite (Rabs_minus_sym x' x), (Rabs_minus_sym y' y) in *. lra.
Qed.

(** ** relative errors with a tiny absolute part *)
Definition n0 : R := bpow radix2 (-1074).
Lemma n0_pos : 0 < n0. Proof. apply bpow_gt_0. Qed.
Lemma n0_tiny : n0 <= / 2 ^ 200.
Proof. rewrite <- bpow_neg. apply bpow_le. lia. Qed.
Lemma rnd64_close r : Rabs (rnd64 r - r) <= u64 * Rabs r + n0.
Proof.
  pose proof n0_pos. pose proof u64_pos. destruct (Rle_dec (bpow radix2 (-1022)) (Rabs r)) as [H1|H1].
  - destruct (rnd64_rel r H1) as (d & D & ->). replace (r * (1 + d) - r) with (d * r) by ring. rewrite Rabs_mult. pose proof (Rabs_pos r). nra.
  - pose proof (rnd64_err r (-1074) ltac:(lia)) as E. assert (A : Rabs r < bpow radix2 (53 + -1074)).
    { apply Rlt_le_trans with (bpow radix2 (-1022)); [lra|]. apply bpow_le. lia. }
    specialize (E A). fold n0 in E. pose proof (Rabs_pos r). nra.
Qed.
Definition close (e n r x : R) : Prop := 0 <= x /\ r * (1 - e) - n <= x <= r * (1 + e) + n.
Lemma close_rnd r : 0 <= r -> close u64 n0 r (rnd64 r).
Proof.
  intros H. split; [apply rnd64_nonneg; auto|]. pose proof (rnd64_close r) as E. rewrite (Rabs_pos_eq r) in E by auto. apply Rabs_le_inv in E. lra.
Qed.
Lemma close_trans e1 n1 e2 n2 r x y : 0 <= r <= 4 -> 0 <= e1 <= 1 -> 0 <= e2 <= 1 -> 0 <= n1 -> 0 <= n2 ->
  close e1 n1 r x -> close e2 n2 x y -> close (e1 + e2 + e1 * e2) (2 * (n1 + n2)) r y.
Proof.
  intros R E1 E2 N1 N2 (X & A) (Y & B). split; auto. assert (0 <= e1 * e2) by (apply Rmult_le_pos; lra). assert (0 <= r * e1) by (apply Rmult_le_pos; lra).
  assert (0 <= r * e2) by (apply Rmult_le_pos; lra). assert (r * e1 * e2 <= r * e1) by nra. assert (0 <= r * e1 * e2) by nra. assert (0 <= n1 * e2 <= n1) by nra. split.
  - assert (x * (1 - e2) >= (r * (1 - e1) - n1) * (1 - e2)) by nra. nra.
  - assert (x * (1 + e2) <= (r * (1 + e1) + n1) * (1 + e2)) by nra. nra.
Qed.
Lemma close_mul e1 n1 e2 n2 r x s y : 0 <= r <= 1 -> 0 <= s <= 1 -> 0 <= e1 <= / 2 -> 0 <= e2 <= / 2 -> 0 <= n1 <= / 2 -> 0 <= n2 <= / 2 ->
  close e1 n1 r x -> close e2 n2 s y -> close (e1 + e2 + e1 * e2) (8 * (n1 + n2)) (r * s) (x * y).
Proof.
  intros R S E1 E2 N1 N2 (X & A) (Y & B). split; [apply Rmult_le_pos; auto|].
  assert (0 <= r * s <= 1) by nra. assert (0 <= e1 * e2) by (apply Rmult_le_pos; lra). assert (e1 * e2 <= e1) by nra. 
  assert (RS : 0 <= r * s * (e1 * e2)) by nra. assert (RS1 : r * s * (e1 * e2) <= r * s * e1) by nra. 
  assert (0 <= r * s * e1) by nra. assert (0 <= r * s * e2) by nra. assert (N12 : 0 <= n1 * n2 <= n1) by nra. split.
  - destruct (Rle_dec (r * (1 - e1)) n1) as [Q|Q].
    { assert (r <= 2 * n1) by nra. assert (r * s <= 2 * n1) by nra. assert (0 <= x * y) by (apply Rmult_le_pos; auto).
      assert (r * s * (1 - (e1 + e2 + e1 * e2)) <= r * s) by nra. lra. }
    destruct (Rle_dec (s * (1 - e2)) n2) as [Q2|Q2].
    { assert (s <= 2 * n2) by nra. assert (r * s <= 2 * n2) by nra. assert (0 <= x * y) by (apply Rmult_le_pos; auto).
      assert (r * s * (1 - (e1 + e2 + e1 * e2)) <= r * s) by nra. lra. }
    apply Rle_trans with ((r * (1 - e1) - n1) * (s * (1 - e2) - n2)); [|apply Rmult_le_compat; lra].
    assert (0 <= r * (1 - e1) <= 1) by nra. assert (0 <= s * (1 - e2) <= 1) by nra.
    assert (r * (1 - e1) * n2 <= n2) by nra. assert (s * (1 - e2) * n1 <= n1) by nra.
    replace ((r * (1 - e1) - n1) * (s * (1 - e2) - n2)) with (r * s * (1 - e1 - e2) + r * s * (e1 * e2) - r * (1 - e1) * n2 - s * (1 - e2) * n1 + n1 * n2) by ring. lra.
  - apply Rle_trans with ((r * (1 + e1) + n1) * (s * (1 + e2) + n2)); [apply Rmult_le_compat; lra|].
    assert (0 <= r * (1 + e1) <= 2) by nra. assert (0 <= s * (1 + e2) <= 2) by nra.
    assert (r * (1 + e1) * n2 <= 2 * n2) by nra. assert (s * (1 + e2) * n1 <= 2 * n1) by nra.
    replace ((r * (1 + e1) + n1) * (s * (1 + e2) + n2)) with (r * s * (1 + e1 + e2) + r * s * (e1 * e2) + r * (1 + e1) * n2 + s * (1 + e2) * n1 + n1 * n2) by ring. lra.
Qed.
Lemma close_add e n1 n2 r x s y : 0 <= r -> 0 <= s -> close e n1 r x -> close e n2 s y -> close e (n1 + n2) (r + s) (x + y).
Proof. intros R S (X & A) (Y & B). split; lra. Qed.
Lemma close_weaken e n e' n' r x : 0 <= r -> e <= e' -> n <= n' -> close e n r x -> close e' n' r x.
Proof. intros R E N (X & A). split; auto. split; nra. Qed.
Lemma close_sqrt e n r x : 0 <= r <= 1 -> 0 <= e <= 1 -> 0 <= n -> close e n r x -> Rabs (sqrt x - sqrt r) <= e + sqrt n.
Proof.
  intros R E N (X & A1 & A2). pose proof (sqrt_upper x r e n X (proj1 R) (proj1 E) N A2). pose proof (sqrt_lower x r e n X (proj1 R) E N A1).
  pose proof (sqrt_pos r). assert (sqrt r <= 1) by (rewrite <- sqrt_1; apply sqrt_le_1_alt; lra). apply Rabs_le. nra.
Qed.

(** ** the angle from sine and cosine of half of it *)
Lemma angle_close a b : 0 <= a <= 0.95 -> 0 <= b <= 0.95 -> Rabs (ratan2 (sqrt a) (sqrt (1 - a)) - ratan2 (sqrt b) (sqrt (1 - b))) <= 120 * Rabs (sqrt a - sqrt b).
Proof.
  intros HA HB. unfold ratan2.
  assert (LO : forall c, 0 <= c <= 0.95 -> 0.22 <= sqrt (1 - c) <= 1 /\ sqrt (1 - c) * sqrt (1 - c) = 1 - c).
  { intros c Hc. split; [|apply sqrt_sqrt; lra]. split; [|rewrite <- sqrt_1 at 2; apply sqrt_le_1_alt; lra].
    rewrite <- (sqrt_square 0.22) by lra. apply sqrt_le_1_alt. lra. }
  destruct (LO a HA) as (TA & EA). destruct (LO b HB) as (TB & EB). rewrite !Rlt_bool_true by lra.
  eapply Rle_trans; [apply atan_lip|]. pose proof (sqrt_sqrt a (proj1 HA)) as SA. pose proof (sqrt_sqrt b (proj1 HB)) as SB.
  pose proof (sqrt_pos a). pose proof (sqrt_pos b).
  assert (sqrt a <= 1) by (rewrite <- sqrt_1; apply sqrt_le_1_alt; lra). assert (sqrt b <= 1) by (rewrite <- sqrt_1; apply sqrt_le_1_alt; lra).
  set (s := sqrt a) in *. set (s' := sqrt b) in *. set (t := sqrt (1 - a)) in *. set (t' := sqrt (1 - b)) in *. clearbody s s' t t'.
  assert (DT : Rabs (t' - t) <= 5 * Rabs (s - s')).
  { assert (Q : (t' - t) * (t' + t) = (s - s') * (s + s')) by nra.
    assert (QA : Rabs (t' - t) * (t' + t) = Rabs (s - s') * (s + s')). { rewrite <- (Rabs_pos_eq (t' + t)), <- (Rabs_pos_eq (s + s')) by lra. rewrite <- !Rabs_mult, Q. reflexivity. }
    pose proof (Rabs_pos (t' - t)). pose proof (Rabs_pos (s - s')). nra. }
  replace (s / t - s' / t') with ((s - s') * / t + s' * (t' - t) * (/ t * / t')) by (field; lra).
  assert (I1 : 0 < / t <= 4.6). { split; [apply Rinv_0_lt_compat; lra|]. apply Rmult_le_reg_r with t; [lra|]. rewrite Rinv_l by lra. lra. }
  assert (I2 : 0 < / t' <= 4.6). { split; [apply Rinv_0_lt_compat; lra|]. apply Rmult_le_reg_r with t'; [lra|]. rewrite Rinv_l by lra. lra. }
  eapply Rle_trans; [apply Rabs_triang|]. rewrite !Rabs_mult, (Rabs_pos_eq s'), (Rabs_pos_eq (/ t)), (Rabs_pos_eq (/ t')) by lra.
  set (d := Rabs (s - s')) in *. set (d' := Rabs (t' - t)) in *. assert (0 <= d) by apply Rabs_pos. assert (0 <= d') by apply Rabs_pos. clearbody d d'.
  assert (d * / t <= 4.6 * d) by nra. assert (/ t * / t' <= 21.16) by nra. assert (0 < / t * / t') by nra. assert (s' * d' <= d') by nra.
  assert (s' * d' * (/ t * / t') <= d' * 21.16) by (apply Rmult_le_compat; nra). lra.
Qed.

(** ** an accurate library *)
Lemma F64cr_accurate : trig_accurate F64cr.
Proof.
  constructor.
  - intros d r H B. change (m_radians F64cr d) with (cr1 xradians d). pose proof pi_upper. pose proof PI_RGT_0.
    assert (A : Rabs (r * (PI / 180)) <= 16). { rewrite Rabs_mult, (Rabs_pos_eq (PI / 180)) by lra. apply Rle_trans with (720 * (PI / 180)); [apply Rmult_le_compat_r; lra|lra]. }
    exists (rnd64 (r * (PI / 180))). split.
    + apply num_cr1 with r (r * (PI / 180)); auto. apply big_ok. apply small_bound. lra.
    + eapply Rle_trans; [apply (rnd64_err _ (-48)); [lia|]|].
      * change (53 + -48)%Z with 5%Z. change (bpow radix2 5) with 32. lra.
      * bp. lra.
  - intros x r H. pose proof (SIN_bound r) as B. assert (A : Rabs (sin r) <= 1) by (apply Rabs_le; lra). exists (rnd64 (sin r)). split.
    + change (m_sin F64cr x) with (cr1 xsin x). apply num_cr1 with r (sin r); auto. apply big_ok, small_bound. lra.
    + eapply Rle_trans; [apply (rnd64_err _ (-52)); [lia|]|]; [change (53 + -52)%Z with 1%Z; change (bpow radix2 1) with 2; lra|bp; lra].
  - intros x r H. pose proof (COS_bound r) as B. assert (A : Rabs (cos r) <= 1) by (apply Rabs_le; lra). exists (rnd64 (cos r)). split.
    + change (m_cos F64cr x) with (cr1 xcos x). apply num_cr1 with r (cos r); auto. apply big_ok, small_bound. lra.
    + eapply Rle_trans; [apply (rnd64_err _ (-52)); [lia|]|]; [change (53 + -52)%Z with 1%Z; change (bpow radix2 1) with 2; lra|bp; lra].
  - intros y x a b HY HX Ha Hb. exists (rnd64 (ratan2 a b)).
    assert (A : Rabs (ratan2 a b) <= 2).
    { pose proof PI_RGT_0. pose proof pi_upper. unfold ratan2. destruct (Rlt_bool_spec 0 b).
      - pose proof (atan_bound (a / b)). apply Rabs_le. lra.
      - destruct (Rlt_bool_spec b 0); [lra|]. destruct (Rlt_bool_spec 0 a); [apply Rabs_le; lra|]. destruct (Rlt_bool_spec a 0); [lra|]. rewrite Rabs_R0. lra. }
    split.
    + apply num_rnd with (ratan2 a b); auto; [|apply big_ok, small_bound; lra].
      change (f_val (f_of_xr (xatan2 (f_val y) (f_val x))) = f_rnd (XFin (ratan2 a b))). rewrite f_of_xr_val, HY, HX. reflexivity.
    + eapply Rle_trans; [apply (rnd64_err _ (-50)); [lia|]|]; [change (53 + -50)%Z with 3%Z; change (bpow radix2 3) with 8; lra|bp; lra].
Qed.
