(** * The float64 haversine distance is within a centimetre of the great circle *)
From Coq Require Import Reals Lra Lia ZArith Bool Psatz Ratan.
From Flocq Require Import Core Relative IEEE754.BinarySingleNaN.
From Verif Require Import Base Num NumF64 NumList Libm Libm64 Ulp64 Haversine_model Haversine_spec Haversine_proofs HaversineFloat_spec HaversineFloat_proofs HaversineFloat_proofs2 HaversineAcc_proofs.
Local Open Scope R_scope.
Local Arguments bpow : simpl never.

Lemma quot_close s t s' t' : 0 <= s' <= 1 -> 0.21 <= t -> 0.21 <= t' -> Rabs (s / t - s' / t') <= 5 * Rabs (s - s') + 25 * Rabs (t - t').
Proof.
  intros S T T'. replace (s / t - s' / t') with ((s - s') * / t + s' * (t' - t) * (/ t * / t')) by (field; lra).
  assert (I1 : 0 < / t <= 5). { split; [apply Rinv_0_lt_compat; lra|]. apply Rmult_le_reg_r with t; [lra|]. rewrite Rinv_l by lra. lra. }
  assert (I2 : 0 < / t' <= 5). { split; [apply Rinv_0_lt_compat; lra|]. apply Rmult_le_reg_r with t'; [lra|]. rewrite Rinv_l by lra. lra. }
  eapply Rle_trans; [apply Rabs_triang|]. rewrite !Rabs_mult, (Rabs_pos_eq s'), (Rabs_pos_eq (/ t)), (Rabs_pos_eq (/ t')), (Rabs_minus_sym t' t) by lra.
  set (d := Rabs (s - s')) in *. set (d' := Rabs (t - t')) in *. assert (0 <= d) by apply Rabs_pos. assert (0 <= d') by apply Rabs_pos. clearbody d d'.
  assert (d * / t <= 5 * d) by nra. assert (/ t * / t' <= 25) by nra. assert (0 < / t * / t') by nra. assert (s' * d' <= d') by nra.
  assert (s' * d' * (/ t * / t') <= d' * 25) by (apply Rmult_le_compat; nra). lra.
Qed.
Lemma sqrt_abs_close x y : 0.04 <= x -> 0 <= y -> Rabs (sqrt x - sqrt y) <= 5 * Rabs (x - y).
Proof.
  intros X Y. assert (SX : 0.2 <= sqrt x). { rewrite <- (sqrt_square 0.2) by lra. apply sqrt_le_1_alt. lra. } pose proof (sqrt_pos y) as SY.
  pose proof (sqrt_sqrt x ltac:(lra)) as EX. pose proof (sqrt_sqrt y Y) as EY. set (s := sqrt x) in *. set (t := sqrt y) in *. clearbody s t.
  assert (Q : Rabs (s - t) * (s + t) = Rabs (x - y)). { rewrite <- (Rabs_pos_eq (s + t)) by lra. rewrite <- Rabs_mult. f_equal. rewrite <- EX, <- EY. ring. }
  rewrite <- Q. pose proof (Rabs_pos (s - t)). nra.
Qed.
(** cosine of a latitude up to 89 degrees *)
Lemma cos89 a : Rabs a <= 89 -> 0.016 <= cos (rad a) <= 1.
Proof.
  intros H. split; [|apply COS_bound]. pose proof PI2_3_2. pose proof pi_upper. unfold rad.
  assert (B : Rabs (a * (PI / 180)) <= PI / 2 - / 60). { rewrite Rabs_mult, (Rabs_pos_eq (PI / 180)) by lra. apply Rle_trans with (89 * (PI / 180)); [apply Rmult_le_compat_r; lra|lra]. }
  apply Rle_trans with (cos (PI / 2 - / 60)).
  - rewrite cos_shift. pose proof (sin_taylor (/ 60) ltac:(lra)). lra.
  - set (y := a * (PI / 180)) in *. destruct (Rle_dec 0 y) as [P|P].
    + rewrite Rabs_pos_eq in B by auto. apply cos_decr_1; lra.
    + rewrite Rabs_left in B by lra. rewrite <- (cos_neg y). apply cos_decr_1; lra.
Qed.

Section Accurate.
Variables (L : libm F64) (laws : trig_accurate L).

(** the sine of half a difference *)
Lemma half_sine x y r s D : is_num x r -> is_num y s -> Rabs r <= 720 -> Rabs s <= 720 -> Rabs (s - r) <= D -> D <= 90 ->
  exists v, is_num (m_sin L (n_div (n_sub (m_radians L y) (m_radians L x)) (n_ofZ 2))) v /\ Rabs (v - sin ((rad s - rad r) / 2)) <= / 2 ^ 46 /\ Rabs (sin ((rad s - rad r) / 2)) <= D * (PI / 360).
Proof using laws.
  intros X Y BX BY B HD. destruct (ta_radians _ laws x r X BX) as (v & V & EV). destruct (ta_radians _ laws y s Y BY) as (w & W & EW).
  pose proof pi_upper. pose proof PI_RGT_0. fold (rad r) in EV. fold (rad s) in EW.
  assert (B' : Rabs (rad s - rad r) <= D * (PI / 180)).
  { unfold rad. replace (s * (PI / 180) - r * (PI / 180)) with ((s - r) * (PI / 180)) by ring. rewrite Rabs_mult, (Rabs_pos_eq (PI / 180)) by lra; apply Rmult_le_compat_r; lra. }
  assert (D0 : 0 <= D) by (pose proof (Rabs_pos (s - r)); lra).
  assert (DP : D * (PI / 180) <= 2) by (apply Rle_trans with (90 * (PI / 180)); [apply Rmult_le_compat_r; lra|lra]).
  assert (SB : Rabs (sin ((rad s - rad r) / 2)) <= D * (PI / 360)).
  { eapply Rle_trans; [apply sin_le_arg|]. apply Rabs_le_inv in B'. apply Rabs_le. lra. }
  set (p := rad s) in *. set (q := rad r) in *. clearbody p q.
  assert (P48 : / 2 ^ 48 = / 4 * / 2 ^ 46) by (simpl; lra). assert (P46 : 0 < / 2 ^ 46 <= / 1000) by (simpl; lra). set (e := / 2 ^ 46) in *.
  assert (E51 : / IZR (2 ^ 51) <= e / 30) by (unfold e; simpl; lra). assert (E52 : / 2 ^ 52 <= e / 30) by (unfold e; simpl; lra). clearbody e.
  apply Rabs_le_inv in EV, EW, B'.
  assert (N1 : Rabs (w - v) < 8) by (apply Rabs_def1; lra).
  pose proof (rnd64_err0 _ N1) as E1. apply Rabs_le_inv in E1.
  assert (S : is_num (n_sub (m_radians L y) (m_radians L x)) (rnd64 (w - v))) by (apply num_sub with w v; auto; apply small_bound, Rabs_le; lra).
  set (z := rnd64 (w - v)) in *. clearbody z.
  assert (N2 : Rabs (z / 2) < 8) by (apply Rabs_def1; lra).
  pose proof (rnd64_err0 _ N2) as E2. apply Rabs_le_inv in E2.
  assert (HN : is_num (n_div (n_sub (m_radians L y) (m_radians L x)) (n_ofZ 2)) (rnd64 (z / 2))) by (apply num_half with z; auto; apply small_bound, Rabs_le; lra).
  destruct (ta_sin _ laws _ _ HN) as (o & O & EO). exists o. split; [auto|split; [|auto]].
  replace (o - sin ((p - q) / 2)) with ((o - sin (rnd64 (z / 2))) + (sin (rnd64 (z / 2)) - sin ((p - q) / 2))) by ring.
  eapply Rle_trans; [apply Rabs_triang|]. assert (Rabs (rnd64 (z / 2) - (p - q) / 2) <= e * (5 / 6)) by (apply Rabs_le; lra).
  pose proof (sin_lip (rnd64 (z / 2)) ((p - q) / 2)). lra.
Qed.
Lemma lat_cos_close x r : is_num x r -> Rabs r <= 89 -> exists v, is_num (m_cos L (m_radians L x)) v /\ close (/ 2 ^ 41) 0 (cos (rad r)) v.
Proof using laws.
  intros X B. destruct (ta_radians _ laws x r X) as (w & W & E); [lra|]. destruct (ta_cos _ laws _ _ W) as (v & V & EV). fold (rad r) in E.
  exists v. split; auto. pose proof (cos89 r B) as C. pose proof (cos_lip w (rad r)) as CL.
  assert (P : / 2 ^ 48 + / 2 ^ 52 <= 0.016 * / 2 ^ 41) by (simpl; lra). assert (Q : 0 < / 2 ^ 41 <= / 1000) by (simpl; lra). set (e := / 2 ^ 41) in *. clearbody e.
  assert (EE : Rabs (v - cos (rad r)) <= 0.016 * e).
  { replace (v - cos (rad r)) with ((v - cos w) + (cos w - cos (rad r))) by ring. eapply Rle_trans; [apply Rabs_triang|]. lra. }
  apply Rabs_le_inv in EE. assert (0.016 * e <= cos (rad r) * e) by (apply Rmult_le_compat_r; lra). split; [lra|]. split; nra.
Qed.

Variables (lon1 lat1 lon2 lat2 : F64) (o1 a1 o2 a2 : R).
Hypotheses (O1 : is_num lon1 o1) (A1 : is_num lat1 a1) (O2 : is_num lon2 o2) (A2 : is_num lat2 a2)
  (BO1 : Rabs o1 <= 720) (BO2 : Rabs o2 <= 720) (BA1 : Rabs a1 <= 89) (BA2 : Rabs a2 <= 89)
  (DO : Rabs (o2 - o1) <= 90) (DA : Rabs (a2 - a1) <= 60).

Definition g0 : R := / 2 ^ 41.
(** the number under the root *)
Definition af : F64 := n_add (n_mul (m_sin L (n_div (n_sub (m_radians L lat2) (m_radians L lat1)) (n_ofZ 2))) (m_sin L (n_div (n_sub (m_radians L lat2) (m_radians L lat1)) (n_ofZ 2))))
  (n_mul (n_mul (m_cos L (m_radians L lat1)) (m_cos L (m_radians L lat2))) (n_mul (m_sin L (n_div (n_sub (m_radians L lon2) (m_radians L lon1)) (n_ofZ 2))) (m_sin L (n_div (n_sub (m_radians L lon2) (m_radians L lon1)) (n_ofZ 2))))).
Lemma af_close : exists a, is_num af a /\ 0 <= a <= 0.949 /\ 0 <= hav_a o1 a1 o2 a2 <= 0.949 /\ Rabs (sqrt a - sqrt (hav_a o1 a1 o2 a2)) <= / 2 ^ 38.
Proof using laws O1 A1 O2 A2 BO1 BO2 BA1 BA2 DO DA.
  unfold af, hav_a. pose proof pi_upper as PU. pose proof PI2_3_2 as PL.
  destruct (half_sine lat1 lat2 a1 a2 60 A1 A2) as (v1 & V1 & E1 & B1); try lra. destruct (half_sine lon1 lon2 o1 o2 90 O1 O2) as (v2 & V2 & E2 & B2); try lra.
  destruct (lat_cos_close lat1 a1 A1 BA1) as (c1 & C1 & K1). destruct (lat_cos_close lat2 a2 A2 BA2) as (c2 & C2 & K2).
  pose proof (cos89 a1 BA1) as G1. pose proof (cos89 a2 BA2) as G2.
  set (s1 := sin ((rad a2 - rad a1) / 2)) in *. set (s2 := sin ((rad o2 - rad o1) / 2)) in *. set (k1 := cos (rad a1)) in *. set (k2 := cos (rad a2)) in *. clearbody s1 s2 k1 k2.
  set (x1 := m_sin L (n_div (n_sub (m_radians L lat2) (m_radians L lat1)) (n_ofZ 2))) in *. set (x2 := m_sin L (n_div (n_sub (m_radians L lon2) (m_radians L lon1)) (n_ofZ 2))) in *.
  set (y1 := m_cos L (m_radians L lat1)) in *. set (y2 := m_cos L (m_radians L lat2)) in *. clearbody x1 x2 y1 y2.
  assert (GE : 0 < g0 <= / 1000000 /\ u64 <= g0 / 1000 /\ / 2 ^ 46 = g0 / 32 /\ / 2 ^ 38 = 8 * g0). { rewrite u64_val. unfold g0. simpl. lra. }
  fold g0 in K1, K2. destruct GE as (G0 & GU & G46 & G38). rewrite G46 in E1, E2. rewrite G38.
  pose proof u64_pos as UP. pose proof n0_pos as NP. assert (NT : n0 <= / 1000000 /\ sqrt (112 * n0) <= g0 / 1000).
  { split; [apply Rle_trans with (/ 2 ^ 200); [apply n0_tiny|simpl; lra]|]. rewrite <- (sqrt_square (g0 / 1000)) by lra. apply sqrt_le_1_alt.
    pose proof n0_tiny. apply Rle_trans with (112 * / 2 ^ 200); [lra|]. unfold g0. simpl. lra. }
  destruct NT as (NT & NS). set (g := g0) in *. clearbody g. set (n := n0) in *.
  assert (W1 : Rabs v1 <= 0.5401). { replace v1 with ((v1 - s1) + s1) by ring. eapply Rle_trans; [apply Rabs_triang|]. lra. }
  assert (W2 : Rabs v2 <= 0.8101). { replace v2 with ((v2 - s2) + s2) by ring. eapply Rle_trans; [apply Rabs_triang|]. lra. }
  assert (SQ : forall v b, Rabs v <= b -> 0 <= v * v <= b * b).
  { intros v b Hb. split; [apply Rle_0_sqr|]. rewrite <- (Rabs_pos_eq (v * v)) by apply Rle_0_sqr. rewrite Rabs_mult. apply Rmult_le_compat; try apply Rabs_pos; lra. }
  pose proof (SQ _ _ W1) as Q1. pose proof (SQ _ _ W2) as Q2.
  assert (Q1' : 0 <= s1 * s1 <= 0.2917). { assert (R : Rabs s1 <= 0.54) by lra. pose proof (SQ _ _ R). lra. }
  assert (Q2' : 0 <= s2 * s2 <= 0.6562). { assert (R : Rabs s2 <= 0.81) by lra. pose proof (SQ _ _ R). lra. }
  (* squares *)
  pose proof (close_rnd _ (proj1 Q1)) as R1. pose proof (close_rnd _ (proj1 Q2)) as R2. fold n in R1, R2.
  assert (N1 : is_num (n_mul x1 x1) (rnd64 (v1 * v1))) by (apply num_mul with v1 v1; auto; apply big_ok, small_bound, Rabs_le; lra).
  assert (N2 : is_num (n_mul x2 x2) (rnd64 (v2 * v2))) by (apply num_mul with v2 v2; auto; apply big_ok, small_bound, Rabs_le; lra).
  set (q1 := rnd64 (v1 * v1)) in *. set (q2 := rnd64 (v2 * v2)) in *. clearbody q1 q2.
  (* cosines *)
  assert (GK : 0 <= k1 * k2 <= 1) by nra.
  assert (RC : close (3 * g) (2 * n) (k1 * k2) (rnd64 (c1 * c2)) /\ 0 <= c1 * c2 <= 2).
  { pose proof (close_mul g 0 g 0 k1 c1 k2 c2 ltac:(lra) ltac:(lra) ltac:(lra) ltac:(lra) ltac:(lra) ltac:(lra) K1 K2) as M.
    assert (EG : 0 <= g + g + g * g <= 2.1 * g) by nra. destruct M as (M0 & M1). pose proof (close_rnd _ M0) as R.
    split; [|nra]. apply (close_weaken (g + g + g * g + u64 + (g + g + g * g) * u64) (2 * (8 * (0 + 0) + n))); [lra|nra|lra|].
    apply close_trans with (c1 * c2); try lra; [split; auto|exact R]. }
  destruct RC as (RC & CB). assert (NC : is_num (n_mul y1 y2) (rnd64 (c1 * c2))) by (apply num_mul with c1 c2; auto; apply big_ok, small_bound, Rabs_le; lra).
  set (cc := rnd64 (c1 * c2)) in *. clearbody cc.
  (* second summand *)
  assert (RP : close (4 * g) (50 * n) (k1 * k2 * (v2 * v2)) (rnd64 (cc * q2)) /\ 0 <= cc * q2 <= 4).
  { pose proof (close_mul (3 * g) (2 * n) u64 n (k1 * k2) cc (v2 * v2) q2 ltac:(lra) ltac:(lra) ltac:(lra) ltac:(lra) ltac:(lra) ltac:(lra) RC R2) as M.
    assert (EG : 0 <= 3 * g + u64 + 3 * g * u64 <= 3.1 * g) by nra. destruct M as (M0 & M1). pose proof (close_rnd _ M0) as R. fold n in R.
    assert (K : 0 <= k1 * k2 * (v2 * v2) <= 1). { split; [apply Rmult_le_pos; lra|]. apply Rle_trans with (1 * (v2 * v2)); [apply Rmult_le_compat_r; lra|lra]. }
    split; [|nra]. apply (close_weaken (3 * g + u64 + 3 * g * u64 + u64 + (3 * g + u64 + 3 * g * u64) * u64) (2 * (8 * (2 * n + n) + n))); [lra|nra|lra|].
    apply close_trans with (cc * q2); try lra; [split; auto|exact R]. }
  destruct RP as (RP & PB). assert (NP2 : is_num (n_mul (n_mul y1 y2) (n_mul x2 x2)) (rnd64 (cc * q2))) by (apply num_mul with cc q2; auto; apply big_ok, small_bound, Rabs_le; lra).
  set (p := rnd64 (cc * q2)) in *. clearbody p.
  (* the sum *)
  assert (K : 0 <= k1 * k2 * (v2 * v2) <= 0.6563). { split; [apply Rmult_le_pos; lra|]. apply Rle_trans with (1 * (v2 * v2)); [apply Rmult_le_compat_r; lra|lra]. }
  set (A' := v1 * v1 + k1 * k2 * (v2 * v2)) in *. assert (HA' : 0 <= A' <= 0.9486) by (unfold A'; lra).
  assert (RS : close (5 * g) (112 * n) A' (rnd64 (q1 + p)) /\ 0 <= q1 + p <= 2).
  { assert (R1' : close (4 * g) n (v1 * v1) q1) by (apply (close_weaken u64 n); auto; lra).
    pose proof (close_add (4 * g) n (50 * n) _ _ _ _ (proj1 Q1) (proj1 K) R1' RP) as M. fold A' in M. destruct M as (M0 & M1). pose proof (close_rnd _ M0) as R. fold n in R.
    split; [|nra]. apply (close_weaken (4 * g + u64 + 4 * g * u64) (2 * (n + 50 * n + n))); [lra|nra|lra|].
    apply close_trans with (q1 + p); try lra; [split; auto|exact R]. }
  destruct RS as (RS & SB). exists (rnd64 (q1 + p)). split; [apply num_add with q1 p; auto; apply big_ok, small_bound, Rabs_le; lra|].
  pose proof RS as (X0 & _ & X2). split; [split; [lra|nra]|]. 
  fold (Rsqr s1) (Rsqr s2) in *. assert (H0 : 0 <= Rsqr s1 + k1 * k2 * Rsqr s2 <= 0.949). { unfold Rsqr in *. split; [apply Rplus_le_le_0_compat; [lra|apply Rmult_le_pos; lra]|]. apply Rle_trans with (s1 * s1 + 1 * (s2 * s2)); [apply Rplus_le_compat_l, Rmult_le_compat_r; lra|lra]. } split; [exact H0|].
  pose proof (close_sqrt (5 * g) (112 * n) A' _ ltac:(lra) ltac:(lra) ltac:(lra) RS) as SS.
  pose proof (norm_close v1 v2 s1 s2 (k1 * k2) GK) as NCL. fold A' in NCL. fold (Rsqr s1) (Rsqr s2) in NCL. set (a := rnd64 (q1 + p)) in *. clearbody a.
  replace (sqrt a - sqrt (Rsqr s1 + k1 * k2 * Rsqr s2)) with ((sqrt a - sqrt A') + (sqrt A' - sqrt (Rsqr s1 + k1 * k2 * Rsqr s2))) by ring.
  eapply Rle_trans; [apply Rabs_triang|]. lra.
Qed.

Lemma num_sqrt (x : F64) r : is_num x r -> 0 <= r <= 1 -> is_num (n_sqrt x) (rnd64 (sqrt r)) /\ 0 <= rnd64 (sqrt r) /\ Rabs (rnd64 (sqrt r) - sqrt r) <= / 2 ^ 51.
Proof using.
  intros X Hr. assert (S1 : 0 <= sqrt r <= 1) by (split; [apply sqrt_pos|rewrite <- sqrt_1; apply sqrt_le_1_alt; lra]). split; [|split; [apply rnd64_nonneg; lra|]].
  - apply num_rnd with (sqrt r); auto; [|apply big_ok, small_bound, Rabs_le; lra].
    pose proof (val_sqrt _ F64sem x) as V. change (f_val (n_sqrt x) = f_rnd (xsqrt (f_val x))) in V. rewrite V, X. unfold xsqrt. rewrite Rlt_bool_false by lra. reflexivity.
  - replace (/ 2 ^ 51) with (/ IZR (2 ^ 51)) by (simpl; lra). apply rnd64_err0. rewrite Rabs_pos_eq; lra.
Qed.

Lemma haversine_accurate : exists d, is_num (haversine L lon1 lat1 lon2 lat2) d /\ Rabs (d - great_circle o1 a1 o2 a2) <= / 100000.
Proof using laws O1 A1 O2 A2 BO1 BO2 BA1 BA2 DO DA.
  assert (GC : great_circle o1 a1 o2 a2 = 6367 * (2 * ratan2 (sqrt (hav_a o1 a1 o2 a2)) (sqrt (1 - hav_a o1 a1 o2 a2)))).
  { destruct af_close as (_ & _ & _ & H & _). rewrite atan2_acos by lra. unfold great_circle. do 2 f_equal. rewrite hav_a_dot. field. }
  destruct af_close as (a & AA & RA & RH & RD).
  change (haversine L lon1 lat1 lon2 lat2) with (n_mul (n_ofZ 6367) (n_mul (n_ofZ 2) (m_atan2 L (n_sqrt af) (n_sqrt (n_sub one af))))).
  rewrite GC. set (h := hav_a o1 a1 o2 a2) in *. clearbody h. set (f := af) in *. clearbody f.
  pose proof (angle_close a h ltac:(lra) ltac:(lra)) as AC.
  assert (E51 : / IZR (2 ^ 51) = / 2 ^ 51) by (simpl; lra).
  assert (OM : is_num (n_sub one f) (rnd64 (1 - a)) /\ Rabs (rnd64 (1 - a) - (1 - a)) <= / 2 ^ 51).
  { split; [|rewrite <- E51; apply rnd64_err0; rewrite Rabs_pos_eq; lra]. apply num_sub with 1 a; auto; [apply (num_ofZ 1); lia|]. apply big_ok, small_bound, Rabs_le; lra. }
  destruct OM as (OM & EO). assert (RO : rnd64 (1 - a) <= 1). { apply Rle_trans with (rnd64 1); [apply rnd64_le; lra|rewrite rnd64_1; lra]. }
  set (b := rnd64 (1 - a)) in *. clearbody b.
  assert (P : 0 < / 2 ^ 51 <= / 1000000000) by (simpl; lra). assert (P50 : / 2 ^ 50 = 2 * / 2 ^ 51) by (simpl; lra). assert (P38 : / 2 ^ 38 = 8192 * / 2 ^ 51) by (simpl; lra).
  assert (PM : / 2 ^ 51 <= / 2000000000000000) by (simpl; lra).
  rewrite P38 in RD. clear P50 P38.
  set (e := / 2 ^ 51) in *. 
  assert (RB : 0.05 <= b <= 1) by (pose proof (Rabs_le_inv _ _ EO); lra).
  destruct (num_sqrt _ _ AA ltac:(lra)) as (S1 & T1 & U1). destruct (num_sqrt _ _ OM ltac:(lra)) as (S2 & T2 & U2). fold e in U1, U2.
  destruct (ta_atan2 _ laws _ _ _ _ S1 S2 T1 T2) as (t & T & RT). replace (/ 2 ^ 50) with (2 * e) in RT by (unfold e; simpl; lra).
  set (s := rnd64 (sqrt a)) in *. set (w := rnd64 (sqrt b)) in *. clearbody s w.
  assert (SA : 0 <= sqrt a <= 1) by (split; [apply sqrt_pos|rewrite <- sqrt_1; apply sqrt_le_1_alt; lra]).
  assert (SB : 0.225 <= sqrt (1 - a)). { rewrite <- (sqrt_square 0.225) by lra. apply sqrt_le_1_alt. lra. }
  assert (SB2 : 0.22 <= sqrt b). { rewrite <- (sqrt_square 0.22) by lra. apply sqrt_le_1_alt. lra. }
  pose proof (sqrt_abs_close b (1 - a) ltac:(lra) ltac:(lra)) as SC.
  assert (WB : 0.21 <= w) by (pose proof (Rabs_le_inv _ _ U2); lra).
  assert (WC : Rabs (w - sqrt (1 - a)) <= 6 * e).
  { replace (w - sqrt (1 - a)) with ((w - sqrt b) + (sqrt b - sqrt (1 - a))) by ring. eapply Rle_trans; [apply Rabs_triang|]. lra. }
  assert (QC : Rabs (ratan2 s w - ratan2 (sqrt a) (sqrt (1 - a))) <= 155 * e).
  { unfold ratan2. rewrite !Rlt_bool_true by lra. eapply Rle_trans; [apply atan_lip|]. eapply Rle_trans; [apply quot_close; lra|]. lra. }
  set (r0 := ratan2 s w) in *. set (r1 := ratan2 (sqrt a) (sqrt (1 - a))) in *. assert (R2B : Rabs (ratan2 (sqrt h) (sqrt (1 - h))) <= 1.7).
  { unfold ratan2. rewrite Rlt_bool_true by (apply sqrt_lt_R0; lra). pose proof (atan_bound (sqrt h / sqrt (1 - h))). pose proof pi_upper. apply Rabs_le. lra. }
  set (r2 := ratan2 (sqrt h) (sqrt (1 - h))) in *. clearbody r0 r1 r2.
  assert (TE : Rabs (t - r2) <= 983197 * e).
  { replace (t - r2) with ((t - r0) + (r0 - r1) + (r1 - r2)) by ring. eapply Rle_trans; [apply Rabs_triang|]. eapply Rle_trans; [apply Rplus_le_compat_r, Rabs_triang|]. lra. }
  apply Rabs_le_inv in TE. apply Rabs_le_inv in R2B.
  assert (M2 : is_num (n_mul (n_ofZ 2) (m_atan2 L (n_sqrt f) (n_sqrt (n_sub one f)))) (rnd64 (2 * t)) /\ Rabs (rnd64 (2 * t) - 2 * t) <= e).
  { split; [|rewrite <- E51; apply rnd64_err0; apply Rabs_def1; lra]. apply num_mul with 2 t; auto; [apply (num_ofZ 2); lia|]. apply big_ok, small_bound, Rabs_le. lra. }
  destruct M2 as (M2 & EM). set (z := rnd64 (2 * t)) in *. clearbody z. apply Rabs_le_inv in EM.
  assert (N3 : Rabs (6367 * z) < 32768) by (apply Rabs_def1; lra).
  assert (EZ : Rabs (rnd64 (6367 * z) - 6367 * z) <= 8192 * e).
  { eapply Rle_trans; [apply (rnd64_err _ (-38)); [lia|]|]; [change (53 + -38)%Z with 15%Z; change (bpow radix2 15) with 32768; exact N3|]. unfold e. bp. lra. }
  apply Rabs_le_inv in EZ. exists (rnd64 (6367 * z)). split; [|apply Rabs_le; lra].
  apply num_mul with 6367 z; auto; [apply (num_ofZ 6367); lia|]. apply big_ok, small_bound. lra.
Qed.
End Accurate.
