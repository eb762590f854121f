From Coq Require Import List ZArith Bool Lia Arith Reals Lra.
From Flocq Require Import Core.
From Verif Require Import Base Num NumF64 NumList NpOps RealSpec Libm Libm64 Ulp64 Grid_model Grid_spec Grid_proofs
  HaversineFloat_spec HaversineFloat_proofs HaversineFloat_proofs2 HaversineAcc_proofs FloatErr_spec FloatErr_proofs VarFloat_model VarFloat_spec.
Local Open Scope R_scope.
Local Arguments bpow : simpl never.

(** ** exact arithmetic: the same as the model over the reals *)
Lemma xlit m e : n_lit (O := XR) m e = XFin (IZR m / IZR (10 ^ Z.of_nat e)).
Proof. unfold n_lit. simpl. unfold xdiv. rewrite Req_bool_false; [reflexivity|]. apply IZR_neq. apply Z.pow_nonzero; lia. Qed.
Lemma xpowr h e : 0 < h -> m_pow XRm (XFin h : XR) (XFin e : XR) = XFin (Rpower h e).
Proof. intros H. apply (xpow_pos h e H). Qed.
Lemma xpow4 x : m_pow XRm (XFin x : XR) (n_ofZ 4 : XR) = XFin (x ^ 4).
Proof.
  change (xpow (XFin x) (XFin 4) = XFin (x ^ 4)). unfold xpow. rewrite (Req_bool_false 4 0) by lra.
  assert (I : Zfloor 4 = 4%Z) by (apply (Zfloor_IZR 4)).
  destruct (Rlt_bool_spec 0 x) as [H|H].
  - f_equal. replace 4 with (INR 4) by (simpl; ring). apply Rpower_pow. auto.
  - destruct (Req_bool_spec x 0) as [->|N].
    + rewrite (Rlt_bool_true 0 4) by lra. f_equal. ring.
    + unfold is_int. rewrite I. rewrite (Req_bool_true 4 4) by reflexivity. reflexivity.
Qed.
Lemma exact_same jd h : 0 < h -> clim_var_param_n XRm (XFin PI : XR) (XFin jd : XR) (XFin h : XR)
  = (do v <- clim_var_param jd h; Ok (XFin (v_sill v) : XR, XFin (v_range v) : XR, XFin (v_nugget v) : XR)).
Proof.
  intros H. unfold clim_var_param_n, clim_var_param. rewrite (Req_bool_false h 0) by lra. cbn [bind v_sill v_range v_nugget].
  change (n_eqb (XFin h : XR) zero) with (Req_bool h 0). rewrite (Req_bool_false h 0) by lra. cbv zeta. rewrite !xlit. rewrite !xpowr by auto.
  assert (F : n_div (one : XR) (n_ofZ 365) = XFin (1 / 365)) by (change (xdiv (XFin 1) (XFin 365) = XFin (1 / 365)); unfold xdiv; rewrite (Req_bool_false 365 0) by lra; reflexivity).
  assert (XM : forall a b, n_mul (XFin a : XR) (XFin b : XR) = XFin (a * b)) by reflexivity.
  assert (XA : forall a b, n_add (XFin a : XR) (XFin b : XR) = XFin (a + b)) by reflexivity.
  assert (XS : forall a b, n_sub (XFin a : XR) (XFin b : XR) = XFin (a - b)) by reflexivity.
  assert (XC : forall a, m_cos XRm (XFin a : XR) = XFin (cos a)) by reflexivity.
  change (n_ofZ 2 : XR) with (XFin 2 : XR). change (n_ofZ 162 : XR) with (XFin 162 : XR).
  repeat (rewrite ?F, ?XM, ?XA, ?XS, ?XC). rewrite !xpow4. rewrite !XM.
  assert (XT : forall a, n_div (XFin a : XR) (n_ofZ 1000) = XFin (a / 1000)).
  { intros a. change (xdiv (XFin a) (XFin 1000) = XFin (a / 1000)). unfold xdiv. rewrite (Req_bool_false 1000 0) by lra. reflexivity. }
  rewrite XT. change (10 ^ Z.of_nat 2)%Z with 100%Z. change (10 ^ Z.of_nat 1)%Z with 10%Z.
  replace (-12 / 100) with (- (12 / 100)) by lra. replace (-25 / 100) with (- (25 / 100)) by lra. replace (-37 / 100) with (- (37 / 100)) by lra. replace (-3 / 100) with (- (3 / 100)) by lra.
  reflexivity.
Qed.

(** ** rough bounds *)
Lemma rough r : / 1024 <= r * bpow radix2 200 -> r * (1023 / 1024) <= rnd64 r <= r * (1025 / 1024).
Proof.
  intros H. assert (P : 0 < r). { apply Rmult_lt_reg_r with (bpow radix2 200); [apply bpow_gt_0|]. lra. }
  assert (Q : bpow radix2 (-1022) <= Rabs r).
  { rewrite Rabs_pos_eq by lra. apply Rmult_le_reg_r with (bpow radix2 200); [apply bpow_gt_0|]. rewrite <- bpow_plus.
    apply Rle_trans with (2 := H). replace (/ 1024) with (bpow radix2 (-10)) by (change (bpow radix2 (-10)) with (/ IZR (Zpower_pos 2 10)); f_equal). apply bpow_le. lia. }
  destruct (rnd64_rel r Q) as (d & D & E). rewrite E. pose proof u64_small. apply Rabs_le_inv in D. split; apply Rmult_le_compat_l; lra.
Qed.
Lemma rough' r : / 2 ^ 60 <= r -> r * (1023 / 1024) <= rnd64 r <= r * (1025 / 1024).
Proof.
  intros H. apply rough. apply Rle_trans with (/ 2 ^ 60 * bpow radix2 200).
  - replace (/ 2 ^ 60) with (bpow radix2 (-60)). { rewrite <- bpow_plus. apply Rle_trans with 1; [lra|]. apply (bpow_le radix2 0). lia. }
    change (bpow radix2 (-60)) with (/ IZR (Zpower_pos 2 60)). f_equal. simpl. lra.
  - apply Rmult_le_compat_r; [apply bpow_ge_0|auto].
Qed.
Lemma small_big r : Rabs r <= 2 ^ 90 -> Rabs r <= big.
Proof.
  intros H. apply Rle_trans with (1 := H). unfold big. apply Rle_trans with (bpow radix2 90); [|apply bpow_le; lia]. change (bpow radix2 90) with (IZR (Zpower_pos 2 90)). simpl. lra.
Qed.

Lemma ln2_pos : 0 < ln 2. Proof. rewrite <- ln_1. apply ln_increasing; lra. Qed.
Lemma exp_ln2 n : exp (INR n * ln 2) = 2 ^ n.
Proof. rewrite <- Rpower_pow by lra. reflexivity. Qed.
Lemma exp_le x y : x <= y -> exp x <= exp y.
Proof. intros [H| ->]; [left; apply exp_increasing; auto|right; auto]. Qed.
Lemma ln_le x y : 0 < x -> x <= y -> ln x <= ln y.
Proof. intros H [K| ->]; [left; apply ln_increasing; auto|right; auto]. Qed.
Lemma ln_range h : 1 / 64 <= h <= 2 ^ 20 -> - (6 * ln 2) <= ln h <= 20 * ln 2.
Proof.
  intros H. split.
  - replace (6 * ln 2) with (INR 6 * ln 2) by (simpl; ring). rewrite <- ln_pow by lra. rewrite <- ln_Rinv by (apply pow_lt; lra). apply ln_le; [apply Rinv_0_lt_compat, pow_lt; lra|]. simpl. lra.
  - replace (20 * ln 2) with (INR 20 * ln 2) by (simpl; ring). rewrite <- ln_pow by lra. apply ln_le; lra.
Qed.
Lemma Rpower_range h e : 1 / 64 <= h <= 2 ^ 20 -> - (1 / 2) <= e <= 1 / 2 -> / 2 ^ 10 <= Rpower h e <= 2 ^ 10.
Proof.
  intros H E. pose proof (ln_range h H) as LH. pose proof ln2_pos as L2. unfold Rpower.
  assert (B : - (10 * ln 2) <= e * ln h <= 10 * ln 2).
  { assert (A : Rabs (e * ln h) <= (1 / 2) * (20 * ln 2)). { rewrite Rabs_mult. apply Rmult_le_compat; try apply Rabs_pos; apply Rabs_le; lra. }
    apply Rabs_le_inv in A. lra. }
  replace (10 * ln 2) with (INR 10 * ln 2) in B by (simpl; ring).
  rewrite <- (exp_ln2 10), <- exp_Ropp. split; apply exp_le; lra.
Qed.
Lemma Rpower_ratio h e n : 1 / 64 <= h <= 2 ^ 20 -> - (INR n / 6) <= e <= 0 -> Rpower h e <= 2 ^ n.
Proof.
  intros H E. pose proof (ln_range h H) as LH. pose proof ln2_pos as L2. unfold Rpower. rewrite <- exp_ln2. apply exp_le.
  apply Rle_trans with ((- e) * (6 * ln 2)).
  - replace (e * ln h) with ((- e) * (- ln h)) by ring. apply Rmult_le_compat_l; lra.
  - replace ((- e) * (6 * ln 2)) with ((6 * - e) * ln 2) by ring. apply Rmult_le_compat_r; lra.
Qed.
Lemma lit_num m e v : (Z.abs m <= 2 ^ 53)%Z -> (10 ^ Z.of_nat e <= 2 ^ 53)%Z -> v = IZR m / IZR (10 ^ Z.of_nat e) -> is_num (n_lit m e) (rnd64 v).
Proof.
  intros M E ->. unfold n_lit. pose proof (Z.pow_pos_nonneg 10 (Z.of_nat e) ltac:(lia) ltac:(lia)) as P.
  apply is_div; try apply num_ofZ; try lia.
  - apply IZR_neq. lia.
  - apply small_big. unfold Rdiv. rewrite Rabs_mult. rewrite Rabs_inv. rewrite <- !abs_IZR. rewrite (Z.abs_eq (10 ^ Z.of_nat e)) by lia.
    apply Rle_trans with (IZR (2 ^ 53) * 1).
    + apply Rmult_le_compat; [apply IZR_le; lia|left; apply Rinv_0_lt_compat, IZR_lt; lia|apply IZR_le; auto|].
      rewrite <- Rinv_1. apply Rinv_le_contravar; [lra|]. apply IZR_le. lia.
    + rewrite Rmult_1_r. simpl. lra.
Qed.
Lemma rough_neg r : / 2 ^ 60 <= r -> - (r * (1025 / 1024)) <= rnd64 (- r) <= - (r * (1023 / 1024)).
Proof. intros H. pose proof (rough' r H). rewrite rnd64_opp. lra. Qed.

(** ** the base of a fourth power *)
Lemma two10 : (2 ^ 10 = 1024) /\ (2 ^ 20 = 1048576) /\ (2 ^ 60 = 1152921504606846976) /\ 2 ^ 90 = 1237940039285380274899124224.
Proof. repeat split; simpl; lra. Qed.
Lemma b100 : bpow radix2 100 = 1267650600228229401496703205376 /\ bpow radix2 (-100) = / 1267650600228229401496703205376.
Proof. split; [change (bpow radix2 100) with (IZR (Zpower_pos 2 100)); simpl; lra|change (bpow radix2 (-100)) with (/ IZR (Zpower_pos 2 100)); f_equal; simpl; lra]. Qed.

Section Float.
Variables (L : libm F64) (pi jd h : F64) (p j x : R).
Hypotheses (PR : pow_rough L) (CR : cos_range L).
Hypotheses (NP : is_num pi p) (NJ : is_num jd j) (NH : is_num h x) (HP : 3 <= p <= 4) (HJ : Rabs j <= 2 ^ 20) (HX : 1 / 64 <= x <= 2 ^ 20).

Lemma pow_h e E : is_num e E -> - (1 / 2) <= E <= 1 / 2 -> exists q, is_num (m_pow L h e) q /\ Rpower x E * (7 / 8) <= q <= Rpower x E * (9 / 8) /\ / 1024 <= Rpower x E <= 1024.
Proof.
  intros N HE. destruct two10 as (T10 & _). destruct b100 as (B1 & B2). pose proof (Rpower_range x E HX HE) as Q. rewrite T10 in Q.
  destruct (PR h e x E NH N) as (q & Q1 & Q2); [lra|rewrite B1, B2; lra|]. exists q. split; [auto|]. apply Rabs_le_inv in Q2. lra.
Qed.

Lemma wave_ok k K e E : is_num k K -> Rabs K <= 1024 -> is_num e E -> - (1 / 2) <= E <= 1 / 2 ->
  exists c, is_num (m_cos L (n_mul (n_mul (n_mul (n_ofZ 2) pi) (n_div one (n_ofZ 365))) (n_sub jd (n_mul k (m_pow L h e))))) c /\ -1 <= c <= 1.
Proof.
  intros NK HK NE HE. destruct two10 as (T10 & T20 & T60 & T90). destruct (pow_h e E NE HE) as (q & Q1 & Q2 & Q3). rewrite T20 in HJ.
  assert (R2 : forall r B, Rabs r <= B -> 0 <= B <= 2 ^ 80 -> Rabs (rnd64 r) <= 2 * B + 1).
  { intros r B H1 H2. pose proof (rnd64_close r) as C. pose proof u64_small. pose proof n0_pos. pose proof u64_pos.
    assert (n0 <= 1) by (unfold n0; apply (bpow_le radix2 _ 0); lia). apply Rabs_le_inv in C. apply Rabs_le_inv in H1.
    assert (u64 * Rabs r <= / 1024 * B). { apply Rmult_le_compat; try lra; [apply Rabs_pos|apply Rabs_le; lra]. } apply Rabs_le. lra. }
  assert (N1 : is_num (n_mul k (m_pow L h e)) (rnd64 (K * q)) /\ Rabs (rnd64 (K * q)) <= 4 * 1048576).
  { assert (B : Rabs (K * q) <= 1024 * 1152). { rewrite Rabs_mult. apply Rmult_le_compat; try apply Rabs_pos; auto. apply Rabs_le. lra. }
    split; [apply is_mul; auto; apply small_big; lra|]. apply Rle_trans with (1 := R2 _ _ B ltac:(simpl; lra)). lra. }
  destruct N1 as [N1 B1].
  assert (N2 : is_num (n_sub jd (n_mul k (m_pow L h e))) (rnd64 (j - rnd64 (K * q))) /\ Rabs (rnd64 (j - rnd64 (K * q))) <= 16 * 1048576).
  { assert (B : Rabs (j - rnd64 (K * q)) <= 5 * 1048576). { apply Rabs_le_inv in HJ. apply Rabs_le_inv in B1. apply Rabs_le. lra. }
    split; [apply is_sub; auto; apply small_big; lra|]. apply Rle_trans with (1 := R2 _ _ B ltac:(simpl; lra)). lra. }
  destruct N2 as [N2 B2].
  assert (NO : is_num (n_ofZ 2) 2) by (apply (num_ofZ 2); lia).
  assert (N3 : is_num (n_mul (n_ofZ 2) pi) (rnd64 (2 * p)) /\ Rabs (rnd64 (2 * p)) <= 20).
  { assert (B : Rabs (2 * p) <= 8) by (apply Rabs_le; lra). split; [apply is_mul; auto; apply small_big; lra|]. apply Rle_trans with (1 := R2 _ _ B ltac:(simpl; lra)). lra. }
  destruct N3 as [N3 B3].
  assert (N4 : is_num (n_div one (n_ofZ 365)) (rnd64 (1 / 365)) /\ Rabs (rnd64 (1 / 365)) <= 4).
  { assert (B : Rabs (1 / 365) <= 1) by (apply Rabs_le; lra). split; [apply is_div; try apply num_ofZ; try lia; [lra|]; apply small_big; lra|]. apply Rle_trans with (1 := R2 _ _ B ltac:(simpl; lra)). lra. }
  destruct N4 as [N4 B4].
  assert (N5 : is_num (n_mul (n_mul (n_ofZ 2) pi) (n_div one (n_ofZ 365))) (rnd64 (rnd64 (2 * p) * rnd64 (1 / 365))) /\ Rabs (rnd64 (rnd64 (2 * p) * rnd64 (1 / 365))) <= 200).
  { assert (B : Rabs (rnd64 (2 * p) * rnd64 (1 / 365)) <= 20 * 4) by (rewrite Rabs_mult; apply Rmult_le_compat; auto; apply Rabs_pos).
    split; [apply is_mul; auto; apply small_big; lra|]. apply Rle_trans with (1 := R2 _ _ B ltac:(simpl; lra)). lra. }
  destruct N5 as [N5 B5].
  eapply CR. apply is_mul; [exact N5|exact N2|]. apply small_big. rewrite Rabs_mult.
  apply Rle_trans with (200 * (16 * 1048576)); [apply Rmult_le_compat; auto; apply Rabs_pos|lra].
Qed.

Lemma base_ok k1 K1 k2 K2 e1 E1 e2 E2 n c C : is_num k1 K1 -> is_num k2 K2 -> is_num e1 E1 -> is_num e2 E2 -> is_num c C -> -1 <= C <= 1 ->
  / 16 <= K1 <= 32 -> / 16 <= K2 <= 32 -> - (1 / 2) <= E1 <= 1 / 2 -> - (1 / 2) <= E2 <= 1 / 2 -> - (INR n / 6) <= E2 - E1 <= 0 ->
  K2 * 2 ^ n * (9 / 8) * (1025 / 1024) + / 8 <= K1 * (7 / 8) * (1023 / 1024) ->
  exists s, is_num (n_add (n_mul k1 (m_pow L h e1)) (n_mul (n_mul k2 (m_pow L h e2)) c)) s /\ / 16384 <= s <= 131072.
Proof.
  intros N1 N2 NE1 NE2 NC HC B1 B2 BE1 BE2 BE HK. destruct two10 as (T10 & T20 & T60 & T90).
  destruct (pow_h e1 E1 NE1 BE1) as (q1 & Q1 & R1 & S1). destruct (pow_h e2 E2 NE2 BE2) as (q2 & Q2 & R2 & S2).
  assert (RT : Rpower x E2 <= 2 ^ n * Rpower x E1).
  { replace E2 with ((E2 - E1) + E1) by ring. rewrite Rpower_plus. apply Rmult_le_compat_r; [lra|]. apply Rpower_ratio; auto. }
  set (Y1 := Rpower x E1) in *. set (Y2 := Rpower x E2) in *.
  assert (P1 : / 16 * (/ 1024 * (7 / 8)) <= K1 * q1 <= 32 * (1024 * (9 / 8))).
  { split; apply Rmult_le_compat; lra. }
  assert (P2 : / 16 * (/ 1024 * (7 / 8)) <= K2 * q2 <= 32 * (1024 * (9 / 8))).
  { split; apply Rmult_le_compat; lra. }
  assert (NT1 : is_num (n_mul k1 (m_pow L h e1)) (rnd64 (K1 * q1))) by (apply is_mul; auto; apply small_big; rewrite Rabs_pos_eq by lra; lra).
  assert (NM2 : is_num (n_mul k2 (m_pow L h e2)) (rnd64 (K2 * q2))) by (apply is_mul; auto; apply small_big; rewrite Rabs_pos_eq by lra; lra).
  pose proof (rough' (K1 * q1) ltac:(lra)) as F1. pose proof (rough' (K2 * q2) ltac:(lra)) as F2.
  set (t1 := rnd64 (K1 * q1)) in *. set (m2 := rnd64 (K2 * q2)) in *.
  assert (AB : Rabs (m2 * C) <= m2). { rewrite Rabs_mult. rewrite (Rabs_pos_eq m2) by lra. rewrite <- (Rmult_1_r m2) at 2. apply Rmult_le_compat_l; [lra|]. apply Rabs_le. lra. }
  assert (NT2 : is_num (n_mul (n_mul k2 (m_pow L h e2)) c) (rnd64 (m2 * C))) by (apply is_mul; auto; apply small_big; lra).
  assert (AT : Rabs (rnd64 (m2 * C)) <= m2) by (apply rnd64_abs_le; auto; apply (num_generic _ _ NM2)).
  set (t2 := rnd64 (m2 * C)) in *. apply Rabs_le_inv in AT.
  assert (LO : Y1 * / 8 <= t1 + t2).
  { apply Rle_trans with (Y1 * (K1 * (7 / 8) * (1023 / 1024)) - Y1 * (K2 * 2 ^ n * (9 / 8) * (1025 / 1024))).
    - assert (Y1 * (K2 * 2 ^ n * (9 / 8) * (1025 / 1024) + / 8) <= Y1 * (K1 * (7 / 8) * (1023 / 1024))) by (apply Rmult_le_compat_l; lra). lra.
    - assert (A1 : K1 * (Y1 * (7 / 8)) <= K1 * q1) by (apply Rmult_le_compat_l; lra).
      assert (A2 : K2 * q2 <= K2 * (2 ^ n * Y1 * (9 / 8))) by (apply Rmult_le_compat_l; lra). lra. }
  assert (HI : t1 + t2 <= 2 * (32 * (1024 * (9 / 8)) * (1025 / 1024))) by lra.
  exists (rnd64 (t1 + t2)). split; [apply is_add; auto; apply small_big; rewrite Rabs_pos_eq by lra; lra|].
  pose proof (rough' (t1 + t2) ltac:(lra)) as F3. lra.
Qed.

Lemma fourth b s : is_num b s -> / 16384 <= s <= 131072 -> exists y, is_num (m_pow L b (n_ofZ 4)) y /\ / 1267650600228229401496703205376 <= y <= 2 ^ 70.
Proof.
  intros N H. destruct b100 as (B1 & B2). assert (N4 : is_num (n_ofZ 4) 4) by (apply (num_ofZ 4); lia).
  assert (E : Rpower s 4 = s ^ 4) by (replace 4 with (INR 4) by (simpl; ring); apply Rpower_pow; lra).
  assert (LO : (/ 16384) ^ 4 <= s ^ 4) by (apply pow_incr; lra). assert (HI : s ^ 4 <= 131072 ^ 4) by (apply pow_incr; lra).
  assert (V1 : (/ 16384) ^ 4 = / 72057594037927936) by (simpl; lra). assert (V2 : 131072 ^ 4 = 295147905179352825856) by (simpl; lra).
  destruct (PR b (n_ofZ 4) s 4 N N4) as (y & Y1 & Y2); [lra|rewrite E, B1, B2; lra|]. exists y. split; [auto|]. rewrite E in Y2. apply Rabs_le_inv in Y2.
  assert (T70 : 2 ^ 70 = 1180591620717411303424) by (simpl; lra). rewrite T70. lra.
Qed.

Lemma variogram_float : exists sill range nugget rs rr rn,
  clim_var_param_n L pi jd h = Ok (sill, range, nugget) /\ is_num sill rs /\ is_num range rr /\ is_num nugget rn /\ 0 < rs /\ 0 < rr /\ 0 < rn <= rs.
Proof.
  destruct two10 as (T10 & T20 & T60 & T90).
  assert (LIT : forall m v, (Z.abs m <= 100000)%Z -> v = IZR m / 100 -> / 1000 <= v -> is_num (n_lit m 2) (rnd64 v) /\ v * (1023 / 1024) <= rnd64 v <= v * (1025 / 1024)).
  { intros m v Hm Hv Hb. split; [apply lit_num; auto; try lia; cbv; discriminate|]. apply rough'. lra. }
  assert (LITN : forall m v, (Z.abs m <= 100000)%Z -> - v = IZR m / 100 -> / 1000 <= v -> is_num (n_lit m 2) (rnd64 (- v)) /\ - (v * (1025 / 1024)) <= rnd64 (- v) <= - (v * (1023 / 1024))).
  { intros m v Hm Hv Hb. split; [apply lit_num; auto; try lia; cbv; discriminate|]. apply rough_neg. lra. }
  destruct (LIT 1551%Z (1551 / 100) ltac:(lia) ltac:(lra) ltac:(lra)) as [A1 A1'].
  destruct (LIT 9%Z (9 / 100) ltac:(lia) ltac:(lra) ltac:(lra)) as [A2 A2'].
  destruct (LIT 206%Z (206 / 100) ltac:(lia) ltac:(lra) ltac:(lra)) as [A3 A3'].
  destruct (LITN (-12)%Z (12 / 100) ltac:(lia) ltac:(lra) ltac:(lra)) as [A4 A4'].
  destruct (LIT 737%Z (737 / 100) ltac:(lia) ltac:(lra) ltac:(lra)) as [A5 A5'].
  destruct (LIT 22%Z (22 / 100) ltac:(lia) ltac:(lra) ltac:(lra)) as [A6 A6'].
  destruct (LIT 84%Z (84 / 100) ltac:(lia) ltac:(lra) ltac:(lra)) as [C1 C1'].
  destruct (LITN (-25)%Z (25 / 100) ltac:(lia) ltac:(lra) ltac:(lra)) as [C2 C2'].
  destruct (LIT 20%Z (20 / 100) ltac:(lia) ltac:(lra) ltac:(lra)) as [C3 C3'].
  destruct (LITN (-37)%Z (37 / 100) ltac:(lia) ltac:(lra) ltac:(lra)) as [C4 C4'].
  destruct (LITN (-3)%Z (3 / 100) ltac:(lia) ltac:(lra) ltac:(lra)) as [C5 C5'].
  assert (N162 : is_num (n_ofZ 162) 162) by (apply (num_ofZ 162); lia).
  destruct (wave_ok (n_lit 737 2) _ (n_lit 22 2) _ A5 ltac:(apply Rabs_le; lra) A6 ltac:(lra)) as (c1 & W1 & W1').
  destruct (wave_ok (n_ofZ 162) _ (n_lit (-3) 2) _ N162 ltac:(apply Rabs_le; lra) C5 ltac:(lra)) as (c2 & W2 & W2').
  assert (I1 : INR 1 = 1) by reflexivity. assert (I2 : INR 2 = 2) by reflexivity. assert (P1 : 2 ^ 1 = 2) by (simpl; lra). assert (P2 : 2 ^ 2 = 4) by (simpl; lra).
  destruct (base_ok _ _ _ _ _ _ _ _ 2 _ _ A1 A3 A2 A4 W1 W1') as (s1 & G1 & G1').
  1-6: rewrite ?I2, ?P2; lra.
  destruct (base_ok _ _ _ _ _ _ _ _ 1 _ _ C1 C3 C2 C4 W2 W2') as (s2 & G2 & G2').
  1-6: rewrite ?I1, ?P1; lra.
  destruct (fourth _ _ G1 G1') as (y1 & Y1 & Y1'). destruct (fourth _ _ G2 G2') as (y2 & Y2 & Y2').
  assert (T70 : 2 ^ 70 = 1180591620717411303424) by (simpl; lra). rewrite T70 in *.
  unfold clim_var_param_n.
  assert (HZ : n_eqb h zero = false).
  { apply not_true_iff_false. rewrite (val_eqb _ F64sem). change (xeqb (f_val h) (f_val (n_ofZ 0 : F64)) <> true). rewrite NH. rewrite (num_ofZ 0) by lia. rewrite xeqb_true. intros [E _]. injection E. lra. }
  rewrite HZ. cbv zeta.
  do 3 eexists. exists y2, (rnd64 (y1 / 1000)), (rnd64 (rnd64 (1 / 10) * y2)). split; [reflexivity|].
  assert (POS : forall r, / 1000000000000000000000000000000000000 <= r -> r * (1023 / 1024) <= rnd64 r <= r * (1025 / 1024)).
  { intros r Hr. apply rough. apply Rle_trans with (/ 1000000000000000000000000000000000000 * bpow radix2 200).
    - apply Rle_trans with (/ 1000000000000000000000000000000000000 * bpow radix2 130); [|apply Rmult_le_compat_l; [lra|apply bpow_le; lia]].
      change (bpow radix2 130) with (IZR (Zpower_pos 2 130)). simpl. lra.
    - apply Rmult_le_compat_r; [apply bpow_ge_0|auto]. }
  assert (TN : is_num (n_lit 1 1) (rnd64 (1 / 10))) by (apply lit_num; auto; try lia; cbv; discriminate).
  pose proof (rough' (1 / 10) ltac:(lra)) as RT.
  assert (PN : / 20 * y2 <= rnd64 (1 / 10) * y2 <= / 5 * y2) by (split; apply Rmult_le_compat_r; lra).
  pose proof (POS (y1 / 1000) ltac:(lra)) as Q1. pose proof (POS (rnd64 (1 / 10) * y2) ltac:(lra)) as Q2.
  split; [exact Y2|]. split; [apply is_div; [exact Y1|apply (num_ofZ 1000); lia|lra|apply small_big; rewrite Rabs_pos_eq by lra; lra]|].
  split; [apply is_mul; [exact TN|exact Y2|apply small_big; rewrite Rabs_pos_eq by lra; lra]|]. split; [lra|]. split; lra.
Qed.
End Float.

(** ** a correctly rounding library *)
Lemma F64cr_pow_rough : pow_rough F64cr.
Proof.
  intros x y a b X Y A B. exists (rnd64 (Rpower a b)). destruct b100 as (B1 & B2). rewrite B1, B2 in B. split.
  - apply is_rnd.
    + change (m_pow F64cr x y) with (f_of_xr (xpow (f_val x) (f_val y))). rewrite f_of_xr_val. unfold is_num in X, Y. rewrite X, Y, xpow_pos by auto. reflexivity.
    + rewrite Rabs_pos_eq by lra. apply Rle_trans with (bpow radix2 100); [rewrite B1; lra|unfold big; apply bpow_le; lia].
  - assert (R : Rpower a b * (1023 / 1024) <= rnd64 (Rpower a b) <= Rpower a b * (1025 / 1024)).
    { apply rough. apply Rle_trans with (/ 1267650600228229401496703205376 * bpow radix2 200); [|apply Rmult_le_compat_r; [apply bpow_ge_0|lra]].
      apply Rle_trans with (/ 1267650600228229401496703205376 * bpow radix2 100); [rewrite B1; lra|apply Rmult_le_compat_l; [lra|apply bpow_le; lia]]. }
    apply Rabs_le. lra.
Qed.
Lemma F64cr_cos_range : cos_range F64cr.
Proof.
  intros x a X. exists (rnd64 (cos a)). pose proof (COS_bound a) as B. split.
  - apply is_rnd.
    + change (m_cos F64cr x) with (f_of_xr (xcos (f_val x))). rewrite f_of_xr_val. unfold is_num in X. rewrite X. reflexivity.
    + apply small_big. destruct two10 as (_ & _ & _ & ->). apply Rabs_le. lra.
  - assert (G : rnd64 1 = 1) by (rewrite <- (num_generic _ _ (num_ofZ 1 ltac:(lia))) at 2; reflexivity).
    assert (A : Rabs (rnd64 (cos a)) <= 1) by (apply rnd64_abs_le; [exact G|apply Rabs_le; lra]). apply Rabs_le_inv in A. lra.
Qed.
