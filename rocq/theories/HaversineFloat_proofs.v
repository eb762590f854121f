(** * The haversine distance in binary64 *)
From Coq Require Import Reals Lra Lia ZArith Bool Psatz Ratan.
From Flocq Require Import Core IEEE754.BinarySingleNaN.
From Verif Require Import Base Num NumF64 NumList Libm Libm64 Ulp64 Haversine_model HaversineFloat_spec.
Local Open Scope R_scope.
Local Arguments bpow : simpl never.

(** ** rounding to a given number *)
Lemma rnd64_to x m e : (-1074 <= e)%Z -> bpow radix2 (52 + e) <= Rabs x < bpow radix2 (53 + e) -> Rabs (x - IZR m * bpow radix2 e) < bpow radix2 e / 2 ->
  rnd64 x = IZR m * bpow radix2 e.
Proof.
  intros He Hx D.
  assert (M : mag radix2 x = (53 + e)%Z :> Z). { apply mag_unique. replace (53 + e - 1)%Z with (52 + e)%Z by lia. exact Hx. }
  unfold rnd64, round, scaled_mantissa, cexp. rewrite M.
  replace (fexp64 (53 + e)) with e. 2: { unfold fexp64, SpecFloat.fexp, SpecFloat.emin. lia. }
  unfold F2R. cbn [Fnum Fexp]. f_equal. f_equal. apply Znearest_imp.
  pose proof (bpow_gt_0 radix2 e) as B. pose proof (bpow_gt_0 radix2 (- e)) as B'.
  replace (x * bpow radix2 (- e) - IZR m) with ((x - IZR m * bpow radix2 e) * bpow radix2 (- e)).
  2: { rewrite Rmult_minus_distr_r, Rmult_assoc, <- bpow_plus, Z.add_opp_diag_r. change (bpow radix2 0) with 1. ring. }
  rewrite Rabs_mult, (Rabs_pos_eq (bpow radix2 (- e))) by lra.
  apply Rlt_le_trans with (bpow radix2 e / 2 * bpow radix2 (- e)); [apply Rmult_lt_compat_r; auto|].
  unfold Rdiv. rewrite Rmult_comm, <- Rmult_assoc, <- bpow_plus, Z.add_opp_diag_l. change (bpow radix2 0) with 1. lra.
Qed.
Lemma f_rnd_to x v : rnd64 x = v -> Rabs v < bpow radix2 1024 -> f_rnd (XFin x) = XFin v.
Proof. intros <- H. unfold f_rnd. rewrite Rlt_bool_true; auto. Qed.
Lemma big1024 : 2 ^ 100 <= bpow radix2 1024.
Proof. replace (2 ^ 100) with (bpow radix2 100) by (unfold bpow; rewrite pow_IZR; f_equal). apply bpow_le. lia. Qed.
Lemma bpow_neg k : bpow radix2 (- Z.of_nat k) = / 2 ^ k.
Proof.
  rewrite bpow_opp. f_equal. rewrite <- (IZR_Zpower radix2) by lia. rewrite pow_IZR. f_equal. 
Qed.

(** ** antipodes: the square of the sine plus the square of the cosine is above 1 *)
Definition x0 : R := 1027 / 2097152.
Ltac bp := repeat match goal with |- context [bpow radix2 ?z] =>
  let v := eval cbv in (2 ^ (Z.opp z))%Z in match z with Zneg _ => change (bpow radix2 z) with (/ IZR v) end end.
Ltac round_to m e := rewrite (rnd64_to _ m e); [| lia
  | let a := eval cbv in (52 + e)%Z in let b := eval cbv in (53 + e)%Z in change (52 + e)%Z with a; change (53 + e)%Z with b
  | ].

Lemma sin_taylor x : 0 <= x <= 1 -> x - x ^ 3 / 6 + x ^ 5 / 120 - x ^ 7 / 5040 <= sin x <= x - x ^ 3 / 6 + x ^ 5 / 120.
Proof.
  intros [H H1]. assert (P : x <= PI) by (pose proof PI2_3_2; lra).
  pose proof (sin_bound x 1 H P) as (A & _). pose proof (sin_bound x 0 H P) as (_ & B).
  unfold sin_approx in A, B. cbn [sum_f_R0 Nat.mul Nat.add] in A, B. unfold sin_term in A, B. cbn [Nat.mul Nat.add fact] in A, B.
  rewrite !INR_IZR_INZ in A, B. cbn in A, B. split; [eapply Rle_trans; [|exact A]|eapply Rle_trans; [exact B|]]; apply Req_le; field.
Qed.
Lemma cos_taylor x : 0 <= x <= 1 -> 1 - x ^ 2 / 2 + x ^ 4 / 24 - x ^ 6 / 720 <= cos x <= 1 - x ^ 2 / 2 + x ^ 4 / 24.
Proof.
  intros [H0 H1]. assert (H : - PI / 2 <= x) by (pose proof PI2_3_2; lra). assert (P : x <= PI / 2) by (pose proof PI2_3_2; lra).
  pose proof (cos_bound x 1 H P) as (A & _). pose proof (cos_bound x 0 H P) as (_ & B).
  unfold cos_approx in A, B. cbn [sum_f_R0 Nat.mul Nat.add] in A, B. unfold cos_term in A, B. cbn [Nat.mul Nat.add fact] in A, B.
  rewrite !INR_IZR_INZ in A, B. cbn in A, B. split; [eapply Rle_trans; [|exact A]|eapply Rle_trans; [exact B|]]; apply Req_le; field.
Qed.
Lemma x0_range : 0 <= x0 <= 1. Proof. unfold x0. lra. Qed.
Definition s0 : R := IZR 4516793586369363 * bpow radix2 (-63).
Definition c0 : R := IZR 9007198174698518 * bpow radix2 (-53).
Definition ss0 : R := IZR 4530026199016082 * bpow radix2 (-74).
Definition cc0 : R := IZR 9007197094656174 * bpow radix2 (-53).
Definition a0 : R := IZR 4503599627370497 * bpow radix2 (-52).
Lemma rnd_sin0 : rnd64 (sin x0) = s0.
Proof.
  pose proof (sin_taylor x0 x0_range) as H. set (s := sin x0) in *. clearbody s. unfold x0 in H. unfold s0. apply rnd64_to; [lia| |].
  - change (52 + -63)%Z with (-11)%Z. change (53 + -63)%Z with (-10)%Z. bp. rewrite Rabs_pos_eq; [split|]; lra.
  - bp. apply Rabs_def1; lra.
Qed.
Lemma rnd_cos0 : rnd64 (cos x0) = c0.
Proof.
  pose proof (cos_taylor x0 x0_range) as H. set (s := cos x0) in *. clearbody s. unfold x0 in H. unfold c0. apply rnd64_to; [lia| |].
  - change (52 + -53)%Z with (-1)%Z. change (53 + -53)%Z with 0%Z. bp. change (bpow radix2 0) with 1. rewrite Rabs_pos_eq; [split|]; lra.
  - bp. apply Rabs_def1; lra.
Qed.
Lemma rnd_ss0 : rnd64 (s0 * s0) = ss0.
Proof.
  unfold s0, ss0. apply rnd64_to; [lia| |].
  - change (52 + -74)%Z with (-22)%Z. change (53 + -74)%Z with (-21)%Z. bp. rewrite Rabs_pos_eq; [split|]; lra.
  - bp. apply Rabs_def1; lra.
Qed.
Lemma rnd_cc0 : rnd64 (c0 * c0) = cc0.
Proof.
  unfold c0, cc0. apply rnd64_to; [lia| |].
  - change (52 + -53)%Z with (-1)%Z. change (53 + -53)%Z with 0%Z. bp. change (bpow radix2 0) with 1. rewrite Rabs_pos_eq; [split|]; lra.
  - bp. apply Rabs_def1; lra.
Qed.
Lemma rnd_a0 : rnd64 (ss0 + cc0) = a0.
Proof.
  unfold ss0, cc0, a0. apply rnd64_to; [lia| |].
  - change (52 + -52)%Z with 0%Z. change (53 + -52)%Z with 1%Z. bp. change (bpow radix2 0) with 1. change (bpow radix2 1) with 2. rewrite Rabs_pos_eq; [split|]; lra.
  - bp. apply Rabs_def1; lra.
Qed.

(** ** values *)
Lemma num_rnd x r v : f_val x = f_rnd (XFin r) -> rnd64 r = v -> Rabs v <= 2 ^ 90 -> is_num x v.
Proof.
  intros H E B. unfold is_num. rewrite H. apply f_rnd_to; auto. pose proof big1024.
  apply Rle_lt_trans with (1 := B). apply Rlt_le_trans with (2 := H0). apply Rlt_pow; [lra|lia].
Qed.
Lemma num_add (x y : F64) a b v : is_num x a -> is_num y b -> rnd64 (a + b) = v -> Rabs v <= 2 ^ 90 -> is_num (n_add x y) v.
Proof. intros X Y. apply num_rnd. change (n_add x y) with (f_add x y). rewrite f_val_add, X, Y. reflexivity. Qed.
Lemma num_sub (x y : F64) a b v : is_num x a -> is_num y b -> rnd64 (a - b) = v -> Rabs v <= 2 ^ 90 -> is_num (n_sub x y) v.
Proof. intros X Y. apply num_rnd. change (n_sub x y) with (f_sub x y). rewrite f_val_sub, X, Y. reflexivity. Qed.
Lemma num_mul (x y : F64) a b v : is_num x a -> is_num y b -> rnd64 (a * b) = v -> Rabs v <= 2 ^ 90 -> is_num (n_mul x y) v.
Proof. intros X Y. apply num_rnd. change (n_mul x y) with (f_mul x y). rewrite f_val_mul, X, Y. reflexivity. Qed.
Lemma num_ofZ z : (Z.abs z <= 2 ^ 53)%Z -> is_num (n_ofZ z) (IZR z).
Proof. intros H. apply (f_val_ofZ_exact z H). Qed.
Lemma num_half (x : F64) a v : is_num x a -> rnd64 (a / 2) = v -> Rabs v <= 2 ^ 90 -> is_num (n_div x (n_ofZ 2)) v.
Proof.
  intros X. pose proof (num_ofZ 2 ltac:(lia)) as T. apply num_rnd. change (n_div x (n_ofZ 2)) with (f_div x (f_ofZ 2)). change (f_val (f_ofZ 2) = XFin 2) in T.
  rewrite f_val_div by (rewrite T; intros E; injection E; lra). rewrite T, X. unfold xdiv. destruct (Req_bool_spec 2 0); [lra|]. reflexivity.
Qed.
Lemma num_cr1 f x a r v : is_num x a -> f (XFin a) = XFin r -> rnd64 r = v -> Rabs v <= 2 ^ 90 -> is_num (cr1 f x) v.
Proof. intros X F. apply num_rnd. unfold cr1. rewrite f_of_xr_val, X, F. reflexivity. Qed.
Lemma pow90 : 1000000 <= 2 ^ 90.
Proof. apply Rle_trans with (2 ^ 20); [lra|]. apply Rle_pow; [lra|lia]. Qed.
Lemma rnd64_opp r : rnd64 (- r) = - rnd64 r.
Proof. apply round_NE_opp. Qed.
Lemma rnd64_err r e : (-1074 <= e)%Z -> Rabs r < bpow radix2 (53 + e) -> Rabs (rnd64 r - r) <= bpow radix2 e / 2.
Proof.
  intros He H. destruct (Req_dec r 0) as [->|N].
  - rewrite rnd64_0. rewrite Rminus_0_r, Rabs_R0. pose proof (bpow_gt_0 radix2 e). lra.
  - pose proof (error_le_half_ulp radix2 fexp64 (fun n => negb (Z.even n)) r) as E. eapply Rle_trans; [exact E|].
    rewrite Rmult_comm. unfold Rdiv. apply Rmult_le_compat_r; [lra|]. rewrite ulp_neq_0 by auto. apply bpow_le. unfold cexp.
    assert (mag radix2 r <= 53 + e)%Z by (apply mag_le_bpow; auto). unfold SpecFloat.fexp, SpecFloat.emin. lia.
Qed.

(** ** the witness *)
Definition lat0 : F64 := f_of_xr (XFin (x0 * (180 / PI))).
Definition l0 : R := rnd64 (x0 * (180 / PI)).
Lemma pi_bounds : 3 < PI <= 4.
Proof. pose proof PI2_3_2. pose proof PI_4. lra. Qed.
Lemma r0_bounds : / 64 <= x0 * (180 / PI) < / 32.
Proof.
  pose proof pi_bounds. assert (A : 45 <= 180 / PI < 60).
  { split; [apply Rmult_le_reg_r with PI|apply Rmult_lt_reg_r with PI]; try lra; unfold Rdiv; rewrite Rmult_assoc, Rinv_l by lra; lra. }
  unfold x0. lra.
Qed.
Lemma l0_close : Rabs (l0 - x0 * (180 / PI)) <= / IZR (2 ^ 59).
Proof.
  pose proof r0_bounds as B. unfold l0. eapply Rle_trans; [apply (rnd64_err _ (-58)); [lia|]|].
  - change (53 + -58)%Z with (-5)%Z. change (bpow radix2 (-5)) with (/ 32). rewrite Rabs_pos_eq; lra.
  - change (bpow radix2 (-58)) with (/ IZR (2 ^ 58)). lra.
Qed.
Lemma l0_small : 0 <= l0 <= 1.
Proof. pose proof l0_close as H. apply Rabs_le_inv in H. pose proof r0_bounds. lra. Qed.
Lemma num_lat0 : is_num lat0 l0.
Proof.
  apply num_rnd with (x0 * (180 / PI)); [apply f_of_xr_val|reflexivity|]. pose proof l0_small. pose proof pow90. rewrite Rabs_pos_eq; lra.
Qed.
Lemma rad_l0 : rnd64 (l0 * (PI / 180)) = x0.
Proof.
  replace x0 with (IZR 4516793766903808 * bpow radix2 (-63)).
  2: { bp. unfold x0. lra. }
  assert (D : Rabs (l0 * (PI / 180) - x0) <= / IZR (2 ^ 59) / 45).
  { pose proof pi_bounds. replace (l0 * (PI / 180) - x0) with ((l0 - x0 * (180 / PI)) * (PI / 180)) by (field; lra).
    rewrite Rabs_mult, (Rabs_pos_eq (PI / 180)) by lra. unfold Rdiv at 2. apply Rmult_le_compat; try apply Rabs_pos; try lra. apply l0_close. }
  apply Rabs_le_inv in D. set (r := l0 * (PI / 180)) in *. clearbody r. unfold x0 in D. apply rnd64_to; [lia| |].
  - change (52 + -63)%Z with (-11)%Z. change (53 + -63)%Z with (-10)%Z. bp. rewrite Rabs_pos_eq; [split|]; lra.
  - bp. apply Rabs_def1; lra.
Qed.
Lemma x0_generic : rnd64 x0 = x0.
Proof. rewrite <- rad_l0. apply rnd64_generic, rnd64_format. Qed.

Lemma one_round v : 1 - u64 / 2 <= v <= 1 -> rnd64 v = 1.
Proof.
  intros H. apply Rle_antisym.
  - rewrite <- rnd64_1. apply rnd64_le. lra.
  - rewrite <- rnd64_tie. apply rnd64_le. lra.
Qed.
(** half a turn *)
Definition y0 : R := rnd64 (180 * (PI / 180)).
Lemma y0_close : Rabs (y0 - PI) <= / IZR (2 ^ 50).
Proof.
  unfold y0. replace (180 * (PI / 180)) with PI by field. pose proof pi_bounds. eapply Rle_trans; [apply (rnd64_err _ (-50)); [lia|]|].
  - change (53 + -50)%Z with 3%Z. change (bpow radix2 3) with 8. rewrite Rabs_pos_eq; lra.
  - bp. lra.
Qed.
Lemma sin_half_turn p : Rabs (p - PI / 2) <= / IZR (2 ^ 40) -> rnd64 (sin p) = 1.
Proof.
  intros H. apply one_round. split; [|apply SIN_bound]. set (d := Rabs (p - PI / 2)) in *.
  assert (E : sin p = cos d). { rewrite <- cos_shift. unfold d. destruct (Rle_dec 0 (p - PI / 2)); [rewrite Rabs_pos_eq by lra; rewrite <- cos_neg; f_equal; lra|rewrite Rabs_left by lra; f_equal; lra]. }
  rewrite E. assert (D0 : 0 <= d) by apply Rabs_pos. assert (D1 : d <= 1) by lra. pose proof (cos_taylor d (conj D0 D1)) as (T & _).
  assert (d ^ 2 <= / IZR (2 ^ 80)). { replace (/ IZR (2 ^ 80)) with ((/ IZR (2 ^ 40)) ^ 2) by (simpl; lra). apply pow_incr. lra. }
  assert (0 <= d ^ 4 / 24 - d ^ 6 / 720). { replace (d ^ 4 / 24 - d ^ 6 / 720) with (d ^ 4 * (1 - d ^ 2 / 30) / 24) by field.
    assert (0 <= d ^ 4) by (apply pow_le; lra). assert (0 <= 1 - d ^ 2 / 30) by lra. assert (0 <= d ^ 4 * (1 - d ^ 2 / 30)) by (apply Rmult_le_pos; auto). lra. }
  rewrite u64_val. lra.
Qed.

Lemma small_bound v : Rabs v <= 1000000 -> Rabs v <= 2 ^ 90.
Proof. pose proof pow90. lra. Qed.
Ltac small := apply small_bound; first [apply Rabs_le; lra | idtac].
Lemma rnd64_err0 r : Rabs r < 8 -> Rabs (rnd64 r - r) <= / IZR (2 ^ 51).
Proof. intros H. eapply Rle_trans; [apply (rnd64_err r (-50)); [lia|exact H]|]. bp. lra. Qed.

Lemma f_mul_nan (x y : F64) : n_isnan y = true -> n_isnan (n_mul x y) = true.
Proof.
  rewrite !(val_isnan _ F64sem), (val_mul _ F64sem). intros H. destruct (val F64sem y); try discriminate H.
  replace (xmul (val F64sem x) XNaN) with XNaN by (destruct (val F64sem x); reflexivity). rewrite (rnd_nan _ F64sem). reflexivity.
Qed.
Lemma antipodes_nan : n_isnan (haversine F64cr (n_ofZ 0) lat0 (n_ofZ 180) (n_opp lat0)) = true.
Proof.
  unfold haversine. cbv zeta.
  change (m_radians F64cr) with (cr1 xradians). change (m_sin F64cr) with (cr1 xsin). change (m_cos F64cr) with (cr1 xcos).
  pose proof x0_range as X0.
  assert (LON1 : is_num (cr1 xradians (n_ofZ 0)) 0).
  { apply num_cr1 with 0 0; [apply num_ofZ; lia| |apply rnd64_0|small]. unfold xradians, xmul. f_equal. ring. }
  assert (LON2 : is_num (cr1 xradians (n_ofZ 180)) y0).
  { apply num_cr1 with 180 (180 * (PI / 180)); [apply num_ofZ; lia|reflexivity|reflexivity|].
    pose proof y0_close as H. apply Rabs_le_inv in H. pose proof pi_bounds. small. }
  assert (LAT1 : is_num (cr1 xradians lat0) x0).
  { apply num_cr1 with l0 (l0 * (PI / 180)); [apply num_lat0|reflexivity|apply rad_l0|small]. }
  assert (LAT2 : is_num (cr1 xradians (n_opp lat0)) (- x0)).
  { apply num_cr1 with (- l0) (- l0 * (PI / 180)); [|reflexivity| |small].
    - unfold is_num. change (n_opp lat0) with (Bopp lat0). rewrite f_val_opp, num_lat0. reflexivity.
    - rewrite Ropp_mult_distr_l_reverse, rnd64_opp, rad_l0. reflexivity. }
  revert LON1 LON2 LAT1 LAT2. generalize (cr1 xradians (n_ofZ 0)) (cr1 xradians (n_ofZ 180)) (cr1 xradians lat0) (cr1 xradians (n_opp lat0)).
  intros lon1 lon2 lat1 lat2 LON1 LON2 LAT1 LAT2.
  assert (DLAT : is_num (n_sub lat2 lat1) (- (2 * x0))).
  { apply num_sub with (- x0) x0; auto; [|small]. replace (- x0 - x0) with (- (2 * x0)) by ring.
    rewrite rnd64_opp. f_equal. replace (2 * x0) with (IZR 4516793766903808 * bpow radix2 (-62)) by (bp; unfold x0; lra). apply rnd64_generic, grid_format; lia. }
  assert (HLAT : is_num (n_div (n_sub lat2 lat1) (n_ofZ 2)) (- x0)).
  { apply num_half with (- (2 * x0)); auto; [|small]. replace (- (2 * x0) / 2) with (- x0) by field. rewrite rnd64_opp, x0_generic. reflexivity. }
  assert (S1 : is_num (cr1 xsin (n_div (n_sub lat2 lat1) (n_ofZ 2))) (- s0)).
  { apply num_cr1 with (- x0) (sin (- x0)); [exact HLAT|reflexivity| |].
    - rewrite sin_neg, rnd64_opp, rnd_sin0. reflexivity.
    - unfold s0. bp. small. }
  assert (SS : is_num (n_mul (cr1 xsin (n_div (n_sub lat2 lat1) (n_ofZ 2))) (cr1 xsin (n_div (n_sub lat2 lat1) (n_ofZ 2)))) ss0).
  { apply num_mul with (- s0) (- s0); auto; [|unfold ss0; bp; small]. rewrite Rmult_opp_opp. apply rnd_ss0. }
  assert (C1 : is_num (cr1 xcos lat1) c0).
  { apply num_cr1 with x0 (cos x0); [exact LAT1|reflexivity|apply rnd_cos0|unfold c0; bp; small]. }
  assert (C2 : is_num (cr1 xcos lat2) c0).
  { apply num_cr1 with (- x0) (cos (- x0)); [exact LAT2|reflexivity|rewrite cos_neg; apply rnd_cos0|unfold c0; bp; small]. }
  assert (CC : is_num (n_mul (cr1 xcos lat1) (cr1 xcos lat2)) cc0).
  { apply num_mul with c0 c0; auto; [apply rnd_cc0|unfold cc0; bp; small]. }
  pose proof y0_close as YC. apply Rabs_le_inv in YC. pose proof pi_bounds as PB.
  assert (DLON : is_num (n_sub lon2 lon1) (rnd64 (y0 - 0))).
  { apply num_sub with y0 0; auto. rewrite Rminus_0_r. pose proof (rnd64_err0 y0) as E. assert (A : Rabs y0 < 8) by (rewrite Rabs_pos_eq; lra).
    specialize (E A). apply Rabs_le_inv in E. small. }
  assert (HC : Rabs (rnd64 (y0 - 0) - PI) <= / IZR (2 ^ 49)).
  { rewrite Rminus_0_r. pose proof (rnd64_err0 y0) as E. assert (A : Rabs y0 < 8) by (rewrite Rabs_pos_eq; lra).
    specialize (E A). apply Rabs_le_inv in E. apply Rabs_le. lra. }
  set (y1 := rnd64 (y0 - 0)) in *. clearbody y1. apply Rabs_le_inv in HC.
  assert (HLON : is_num (n_div (n_sub lon2 lon1) (n_ofZ 2)) (rnd64 (y1 / 2)) /\ Rabs (rnd64 (y1 / 2) - PI / 2) <= / IZR (2 ^ 40)).
  { pose proof (rnd64_err0 (y1 / 2)) as E. assert (A : Rabs (y1 / 2) < 8) by (rewrite Rabs_pos_eq; lra).
    specialize (E A). apply Rabs_le_inv in E. split; [|apply Rabs_le; lra]. apply num_half with y1; auto. small. }
  destruct HLON as (HLON & HP). set (p := rnd64 (y1 / 2)) in *. clearbody p.
  assert (S2 : is_num (cr1 xsin (n_div (n_sub lon2 lon1) (n_ofZ 2))) 1).
  { apply num_cr1 with p (sin p); [exact HLON|reflexivity|apply sin_half_turn, HP|small]. }
  assert (SS2 : is_num (n_mul (cr1 xsin (n_div (n_sub lon2 lon1) (n_ofZ 2))) (cr1 xsin (n_div (n_sub lon2 lon1) (n_ofZ 2)))) 1).
  { apply num_mul with 1 1; auto; [rewrite Rmult_1_l; apply rnd64_1|small]. }
  set (sq1 := n_mul (cr1 xsin (n_div (n_sub lat2 lat1) (n_ofZ 2))) _) in *. set (sq2 := n_mul (cr1 xsin (n_div (n_sub lon2 lon1) (n_ofZ 2))) _) in *.
  set (cc := n_mul (cr1 xcos lat1) (cr1 xcos lat2)) in *. clearbody sq1 sq2 cc.
  assert (PR : is_num (n_mul cc sq2) cc0).
  { apply num_mul with cc0 1; auto; [|unfold cc0; bp; small]. rewrite Rmult_1_r, <- rnd_cc0. apply rnd64_generic, rnd64_format. }
  assert (AA : is_num (n_add sq1 (n_mul cc sq2)) a0).
  { apply num_add with ss0 cc0; auto; [apply rnd_a0|unfold a0; bp; small]. }
  set (a := n_add sq1 (n_mul cc sq2)) in *. clearbody a.
  assert (N : is_num (n_sub one a) (- / IZR (2 ^ 52))).
  { apply num_sub with 1 a0; auto; [apply (num_ofZ 1); lia| |small].
    replace (1 - a0) with (IZR (-1) * bpow radix2 (-52)) by (unfold a0; bp; lra).
    rewrite rnd64_generic by (apply grid_format; lia). bp. lra. }
  assert (Q : n_isnan (n_sqrt (n_sub one a)) = true).
  { rewrite (val_isnan _ F64sem), (val_sqrt _ F64sem). change (val F64sem (n_sub one a)) with (f_val (n_sub one a)). rewrite N.
    unfold xsqrt. rewrite Rlt_bool_true by lra. rewrite (rnd_nan _ F64sem). reflexivity. }
  set (q := n_sqrt (n_sub one a)) in *. clearbody q. set (w := n_sqrt a). clearbody w.
  assert (T : n_isnan (m_atan2 F64cr w q) = true).
  { rewrite (val_isnan _ F64sem) in Q |- *. change (val F64sem (m_atan2 F64cr w q)) with (f_val (f_of_xr (xatan2 (f_val w) (f_val q)))).
    change (val F64sem q) with (f_val q) in Q. rewrite f_of_xr_val. destruct (f_val q); try discriminate Q. destruct (f_val w); reflexivity. }
  apply f_mul_nan, f_mul_nan, T.
Qed.
