(** * The haversine distance in binary64 for points not too far apart *)
From Coq Require Import Reals Lra Lia ZArith Bool Psatz Ratan Machin.
From Flocq Require Import Core IEEE754.BinarySingleNaN.
From Verif Require Import Base Num NumF64 NumList Libm Libm64 Ulp64 Haversine_model HaversineFloat_spec HaversineFloat_proofs.
Local Open Scope R_scope.
Local Arguments bpow : simpl never.

Lemma pi_upper : PI <= 3.24.
Proof.
  pose proof (PI_2_3_7_ineq 0) as (_ & H). cbn [sum_f_R0 Nat.mul] in H. unfold tg_alt, PI_2_3_7_tg, Ratan_seq in H. cbn in H. lra.
Qed.
Lemma rnd64_nonneg r : 0 <= r -> 0 <= rnd64 r.
Proof. intros H. rewrite <- rnd64_0. apply rnd64_le. auto. Qed.
Lemma num_generic x r : is_num x r -> rnd64 r = r.
Proof.
  intros H. pose proof (f_rnd_val x) as E. rewrite H in E. symmetry. apply f_rnd_finite. exact E.
Qed.
Lemma rnd64_abs r : rnd64 (Rabs r) = Rabs (rnd64 r).
Proof.
  destruct (Rle_dec 0 r) as [H|H].
  - rewrite !Rabs_pos_eq; auto. apply rnd64_nonneg; auto.
  - rewrite !Rabs_left1; [apply rnd64_opp| |lra]. rewrite <- rnd64_0. apply rnd64_le. lra.
Qed.
Lemma rnd64_abs_le r b : rnd64 b = b -> Rabs r <= b -> Rabs (rnd64 r) <= b.
Proof. intros E H. rewrite <- rnd64_abs, <- E. apply rnd64_le. auto. Qed.
Lemma format_2_90 : rnd64 (2 ^ 90) = 2 ^ 90.
Proof. replace (2 ^ 90) with (IZR 1 * bpow radix2 90) by (unfold bpow; rewrite pow_IZR; f_equal; lra || (cbn; lra)). apply rnd64_generic, grid_format; lia. Qed.
Lemma big_ok r : Rabs r <= 2 ^ 90 -> Rabs (rnd64 r) <= 2 ^ 90.
Proof. apply rnd64_abs_le, format_2_90. Qed.
Lemma sin_le_arg r : Rabs (sin r) <= Rabs r.
Proof.
  assert (P : forall x, 0 <= x -> Rabs (sin x) <= x).
  { intros x H. destruct (Rle_dec x 1) as [H1|H1]; [|pose proof (SIN_bound x); apply Rabs_le; lra].
    destruct (Req_dec x 0) as [->|N]; [rewrite sin_0, Rabs_R0; lra|]. rewrite Rabs_pos_eq; [apply Rlt_le, sin_lt_x; lra|].
    apply sin_ge_0; pose proof PI2_3_2; lra. }
  destruct (Rle_dec 0 r) as [H|H]; [rewrite (Rabs_pos_eq r) by auto; auto|].
  rewrite (Rabs_left r) by lra. rewrite <- Rabs_Ropp, <- sin_neg. apply P. lra.
Qed.

(** ** the laws hold for the correctly rounded library *)
Lemma F64cr_trig : trig_laws F64cr.
Proof.
  constructor.
  - intros d r H B. change (m_radians F64cr d) with (cr1 xradians d). pose proof pi_upper. pose proof PI_RGT_0.
    assert (A : Rabs (r * (PI / 180)) <= 16). { rewrite Rabs_mult, (Rabs_pos_eq (PI / 180)) by lra. apply Rle_trans with (720 * (PI / 180)); [apply Rmult_le_compat_r; lra|lra]. }
    exists (rnd64 (r * (PI / 180))). split.
    + apply num_cr1 with r (r * (PI / 180)); auto. apply big_ok. apply small_bound. lra.
    + eapply Rle_trans; [apply (rnd64_err _ (-48)); [lia|]|].
      * change (53 + -48)%Z with 5%Z. change (bpow radix2 5) with 32. lra.
      * bp. lra.
  - intros x r H. exists (rnd64 (sin r)). split.
    + change (m_sin F64cr x) with (cr1 xsin x). apply num_cr1 with r (sin r); auto. apply big_ok, small_bound. pose proof (SIN_bound r). apply Rabs_le. lra.
    + apply rnd64_abs_le; [rewrite rnd64_abs; f_equal; apply (num_generic x); auto|apply sin_le_arg].
  - intros x r H B. exists (rnd64 (cos r)). apply Rabs_le_inv in B. assert (C : 0 <= cos r <= 1) by (split; [apply cos_ge_0; lra|apply COS_bound]). split; [|split].
    + change (m_cos F64cr x) with (cr1 xcos x). apply num_cr1 with r (cos r); auto. apply big_ok, small_bound, Rabs_le. lra.
    + apply rnd64_nonneg. lra.
    + rewrite <- rnd64_1. apply rnd64_le. lra.
  - intros y x a b HY HX Ha Hb. exists (rnd64 (ratan2 a b)).
    assert (A : 0 <= ratan2 a b <= PI / 2).
    { pose proof PI_RGT_0. unfold ratan2. destruct (Rlt_bool_spec 0 b).
      - assert (0 <= a / b) by (apply Rmult_le_pos; [lra|apply Rlt_le, Rinv_0_lt_compat; lra]). split; [|apply Rlt_le, atan_bound].
        destruct (Req_dec (a / b) 0) as [->|N]; [rewrite atan_0; lra|]. rewrite <- atan_0. apply Rlt_le, atan_increasing. lra.
      - destruct (Rlt_bool_spec b 0); [lra|]. destruct (Rlt_bool_spec 0 a); [lra|]. destruct (Rlt_bool_spec a 0); lra. }
    pose proof pi_upper. split; [|split].
    + apply num_rnd with (ratan2 a b); auto.
      * change (f_val (f_of_xr (xatan2 (f_val y) (f_val x))) = f_rnd (XFin (ratan2 a b))). rewrite f_of_xr_val, HY, HX. reflexivity.
      * apply big_ok, small_bound, Rabs_le. lra.
    + apply rnd64_nonneg. lra.
    + apply Rle_trans with (rnd64 (PI / 2)); [apply rnd64_le; lra|]. pose proof PI2_3_2.
      destruct (rnd64_rel (PI / 2)) as (d & D & ->).
      { rewrite Rabs_pos_eq by lra. apply Rle_trans with (bpow radix2 0); [apply bpow_le; lia|change (bpow radix2 0) with 1; lra]. }
      apply Rabs_le_inv in D. apply Rmult_le_compat_l; [lra|]. replace (/ 2 ^ 53) with u64 by (rewrite u64_val; rewrite pow_IZR; reflexivity). lra.
Qed.

(** ** range *)
Section Range.
Variables (L : libm F64) (laws : trig_laws L).
Variables (lon1 lat1 lon2 lat2 : F64) (o1 a1 o2 a2 : R).
Hypotheses (O1 : is_num lon1 o1) (A1 : is_num lat1 a1) (O2 : is_num lon2 o2) (A2 : is_num lat2 a2)
  (BO1 : Rabs o1 <= 720) (BO2 : Rabs o2 <= 720) (BA1 : Rabs a1 <= 89) (BA2 : Rabs a2 <= 89)
  (DO : Rabs (o2 - o1) <= 90) (DA : Rabs (a2 - a1) <= 60).

(** half the difference of two angles in radians *)
Lemma half_diff x y r s D : is_num x r -> is_num y s -> Rabs r <= 720 -> Rabs s <= 720 -> Rabs (s - r) <= D -> D <= 90 ->
  exists h, is_num (n_div (n_sub (m_radians L y) (m_radians L x)) (n_ofZ 2)) h /\ Rabs h <= D * (PI / 360) + / 2 ^ 38.
Proof using laws.
  intros X Y BX BY B HD. destruct (tl_radians _ laws x r X BX) as (v & V & EV). destruct (tl_radians _ laws y s Y BY) as (w & W & EW).
  pose proof pi_upper. pose proof PI_RGT_0.
  assert (B' : Rabs ((s - r) * (PI / 180)) <= D * (PI / 180)) by (rewrite Rabs_mult, (Rabs_pos_eq (PI / 180)) by lra; apply Rmult_le_compat_r; lra).
  assert (D0 : 0 <= D) by (pose proof (Rabs_pos (s - r)); lra).
  assert (DP : D * (PI / 180) <= 2) by (apply Rle_trans with (90 * (PI / 180)); [apply Rmult_le_compat_r; lra|lra]).
  assert (P40 : / 2 ^ 40 = / 4 * / 2 ^ 38) by (simpl; lra). assert (P38 : 0 < / 2 ^ 38 <= / 1000) by (simpl; lra). set (e := / 2 ^ 38) in *.
  assert (E51 : / IZR (2 ^ 51) <= e / 100) by (unfold e; simpl; lra). clearbody e.
  apply Rabs_le_inv in EV, EW, B'.
  assert (N1 : Rabs (w - v) < 8) by (apply Rabs_def1; lra).
  pose proof (rnd64_err0 _ N1) as E1. apply Rabs_le_inv in E1.
  assert (S : is_num (n_sub (m_radians L y) (m_radians L x)) (rnd64 (w - v))) by (apply num_sub with w v; auto; apply small_bound, Rabs_le; lra).
  set (z := rnd64 (w - v)) in *. clearbody z.
  assert (N2 : Rabs (z / 2) < 8) by (apply Rabs_def1; lra).
  pose proof (rnd64_err0 _ N2) as E2. apply Rabs_le_inv in E2.
  exists (rnd64 (z / 2)). split; [apply num_half with z; auto; apply small_bound, Rabs_le; lra|]. apply Rabs_le. lra.
Qed.
(** the square of a sine *)
Lemma sine_square x h b : is_num x h -> Rabs h <= b -> b <= 2 -> exists q, is_num (n_mul (m_sin L x) (m_sin L x)) q /\ 0 <= q <= b * b + / 2 ^ 38.
Proof using laws.
  intros X B B2. destruct (tl_sin _ laws x h X) as (v & V & E).
  assert (Q : 0 <= v * v <= b * b). { split; [apply Rle_0_sqr|]. rewrite <- (Rabs_pos_eq (v * v)) by apply Rle_0_sqr. rewrite Rabs_mult. apply Rmult_le_compat; try apply Rabs_pos; lra. }
  assert (B0 : 0 <= b) by (pose proof (Rabs_pos h); lra). assert (b * b <= 4) by nra.
  assert (N : Rabs (v * v) < 8) by (rewrite Rabs_pos_eq; lra). pose proof (rnd64_err0 _ N) as E1. apply Rabs_le_inv in E1.
  assert (/ IZR (2 ^ 51) <= / 2 ^ 38 <= 1) by (simpl; lra).
  exists (rnd64 (v * v)). split; [apply num_mul with v v; auto; apply small_bound, Rabs_le; lra|]. split; [apply rnd64_nonneg; lra|lra].
Qed.
Lemma lat_cos x r : is_num x r -> Rabs r <= 89 -> exists v, is_num (m_cos L (m_radians L x)) v /\ 0 <= v <= 1.
Proof using laws.
  intros X B. destruct (tl_radians _ laws x r X) as (w & W & E); [lra|]. apply (tl_cos _ laws _ w W).
  pose proof PI2_3_2. assert (B' : Rabs (r * (PI / 180)) <= 89 * (PI / 180)) by (rewrite Rabs_mult, (Rabs_pos_eq (PI / 180)) by lra; apply Rmult_le_compat_r; lra).
  apply Rabs_le_inv in E, B'. assert (/ 2 ^ 40 <= / 1000) by (simpl; lra). apply Rabs_le. lra.
Qed.

Lemma haversine_float_range : exists d, is_num (haversine L lon1 lat1 lon2 lat2) d /\ 0 <= d <= 6367 * PI * (1 + / 2 ^ 50).
Proof using laws O1 A1 O2 A2 BO1 BO2 BA1 BA2 DO DA.
  unfold haversine. cbv zeta. pose proof pi_upper as PU. pose proof PI2_3_2 as PL.
  destruct (half_diff lat1 lat2 a1 a2 60 A1 A2) as (h1 & H1 & B1); try lra. destruct (half_diff lon1 lon2 o1 o2 90 O1 O2) as (h2 & H2 & B2); try lra.
  assert (P38 : 0 < / 2 ^ 38 <= / 1000) by (simpl; lra).
  destruct (sine_square _ h1 (0.545) H1) as (q1 & Q1 & R1); try lra. destruct (sine_square _ h2 (0.815) H2) as (q2 & Q2 & R2); try lra.
  destruct (lat_cos lat1 a1 A1 BA1) as (c1 & C1 & RC1). destruct (lat_cos lat2 a2 A2 BA2) as (c2 & C2 & RC2).
  set (sq1 := n_mul (m_sin L (n_div (n_sub (m_radians L lat2) (m_radians L lat1)) (n_ofZ 2))) _) in *.
  set (sq2 := n_mul (m_sin L (n_div (n_sub (m_radians L lon2) (m_radians L lon1)) (n_ofZ 2))) _) in *. clearbody sq1 sq2.
  set (e := / 2 ^ 38) in *. clearbody e.
  assert (CC : is_num (n_mul (m_cos L (m_radians L lat1)) (m_cos L (m_radians L lat2))) (rnd64 (c1 * c2)) /\ 0 <= rnd64 (c1 * c2) <= 1).
  { assert (0 <= c1 * c2 <= 1) by nra. split; [|split; [apply rnd64_nonneg; lra|rewrite <- rnd64_1; apply rnd64_le; lra]].
    apply num_mul with c1 c2; auto. apply big_ok, small_bound, Rabs_le; lra. }
  destruct CC as (CC & RC). set (cc := rnd64 (c1 * c2)) in *. set (ccf := n_mul (m_cos L _) _) in *. clearbody cc ccf.
  assert (PR : is_num (n_mul ccf sq2) (rnd64 (cc * q2)) /\ 0 <= rnd64 (cc * q2) <= q2).
  { assert (0 <= cc * q2 <= q2) by nra. split; [|split; [apply rnd64_nonneg; lra|]].
    - apply num_mul with cc q2; auto. apply big_ok, small_bound, Rabs_le; lra.
    - rewrite <- (num_generic _ _ Q2). apply rnd64_le. rewrite (num_generic _ _ Q2). lra. }
  destruct PR as (PR & RP). set (p := rnd64 (cc * q2)) in *. clearbody p.
  assert (N : Rabs (q1 + p) < 8) by (rewrite Rabs_pos_eq; lra). pose proof (rnd64_err0 _ N) as E1. apply Rabs_le_inv in E1.
  assert (E51 : / IZR (2 ^ 51) <= / 1000) by lra.
  assert (AA : is_num (n_add sq1 (n_mul ccf sq2)) (rnd64 (q1 + p))) by (apply num_add with q1 p; auto; apply small_bound, Rabs_le; lra).
  assert (RA : 0 <= rnd64 (q1 + p) <= 1) by (split; [apply rnd64_nonneg; lra|lra]).
  set (a := rnd64 (q1 + p)) in *. clearbody a. set (af := n_add sq1 _) in *. clearbody af.
  assert (SQ : forall (x : F64) r, is_num x r -> 0 <= r <= 1 -> exists s, is_num (n_sqrt x) s /\ 0 <= s).
  { intros x r X Hr. exists (rnd64 (sqrt r)). assert (S1 : 0 <= sqrt r <= 1) by (split; [apply sqrt_pos|rewrite <- sqrt_1; apply sqrt_le_1_alt; lra]). split; [|apply rnd64_nonneg; lra].
    apply num_rnd with (sqrt r); auto; [|apply big_ok, small_bound, Rabs_le; lra].
    pose proof (val_sqrt _ F64sem x) as V. change (f_val (n_sqrt x) = f_rnd (xsqrt (f_val x))) in V. rewrite V, X. unfold xsqrt. rewrite Rlt_bool_false by lra. reflexivity. }
  assert (OM : is_num (n_sub one af) (rnd64 (1 - a)) /\ 0 <= rnd64 (1 - a) <= 1).
  { split; [|split; [apply rnd64_nonneg; lra|apply Rle_trans with (rnd64 1); [apply rnd64_le; lra|rewrite rnd64_1; lra]]]. apply num_sub with 1 a; auto; [apply (num_ofZ 1); lia|]. apply big_ok, small_bound, Rabs_le; lra. }
  destruct OM as (OM & RO). destruct (SQ _ _ AA RA) as (s1 & S1 & T1). destruct (SQ _ _ OM RO) as (s2 & S2 & T2).
  destruct (tl_atan2 _ laws _ _ _ _ S1 S2 T1 T2) as (t & T & RT).
  replace (/ 2 ^ 53) with u64 in RT by (rewrite u64_val, pow_IZR; reflexivity). pose proof u64_pos as UP. pose proof u64_small as US.
  assert (UB : forall r b, 0 <= r -> 1 <= b -> r <= b -> rnd64 r <= b * (1 + u64)).
  { intros r b R0 B0 RB. apply Rle_trans with (rnd64 b); [apply rnd64_le; auto|]. destruct (rnd64_rel b) as (dd & D & ->).
    - rewrite Rabs_pos_eq by lra. apply Rle_trans with (bpow radix2 0); [apply bpow_le; lia|change (bpow radix2 0) with 1; lra].
    - apply Rabs_le_inv in D. apply Rmult_le_compat_l; lra. }
  assert (M2 : is_num (n_mul (n_ofZ 2) (m_atan2 L (n_sqrt af) (n_sqrt (n_sub one af)))) (rnd64 (2 * t)) /\ 0 <= rnd64 (2 * t) <= PI * (1 + u64) * (1 + u64)).
  { assert (0 <= 2 * t <= PI * (1 + u64)) by lra. split; [|split; [apply rnd64_nonneg; lra|apply UB; lra || nra]].
    apply num_mul with 2 t; auto; [apply num_ofZ; lia|]. apply big_ok, small_bound, Rabs_le. nra. }
  destruct M2 as (M2 & RM). set (z := rnd64 (2 * t)) in *. clearbody z.
  set (b := PI * (1 + u64) * (1 + u64)) in *.
  assert (BB : 1 <= b <= 4) by (unfold b; split; nra).
  exists (rnd64 (6367 * z)). split.
  - apply num_mul with 6367 z; auto; [apply num_ofZ; lia|]. apply big_ok, small_bound, Rabs_le. lra.
  - split; [apply rnd64_nonneg; lra|]. apply Rle_trans with (6367 * b * (1 + u64)); [apply UB; lra|]. unfold b.
    replace (6367 * (PI * (1 + u64) * (1 + u64)) * (1 + u64)) with (6367 * PI * (1 + (3 * u64 + 3 * u64 * u64 + u64 * u64 * u64))) by ring.
    apply Rmult_le_compat_l; [lra|]. apply Rplus_le_compat_l. replace (/ 2 ^ 50) with (8 * u64) by (rewrite u64_val; simpl; lra). nra.
Qed.
End Range.
