(** Proofs about the haversine distance. *)
From Coq Require Import Reals Lra Lia ZArith Bool Psatz Ratan.
From Flocq Require Import Core IEEE754.BinarySingleNaN.
From Verif Require Import Base Num NumF64 NumList Libm Libm64 Haversine_model Haversine_spec.
Local Arguments bpow : simpl never.
Local Open Scope R_scope.

(** ** exact value *)
Definition hav_a (lon1 lat1 lon2 lat2 : R) : R :=
  Rsqr (sin ((rad lat2 - rad lat1) / 2)) + cos (rad lat1) * cos (rad lat2) * Rsqr (sin ((rad lon2 - rad lon1) / 2)).

Lemma sin_half_sq x : Rsqr (sin (x / 2)) = (1 - cos x) / 2.
Proof.
  replace (cos x) with (cos (2 * (x / 2))) by (f_equal; field). rewrite cos_2a_sin. unfold Rsqr. field.
Qed.

Lemma hav_a_dot lon1 lat1 lon2 lat2 : hav_a lon1 lat1 lon2 lat2 = (1 - cos_angle lon1 lat1 lon2 lat2) / 2.
Proof.
  unfold hav_a, cos_angle, dot3, ux, uy, uz. rewrite !sin_half_sq, !cos_minus. field.
Qed.

Lemma unit_vec lon lat : dot3 (ux lon lat) (uy lon lat) (uz lon lat) (ux lon lat) (uy lon lat) (uz lon lat) = 1.
Proof.
  unfold dot3, ux, uy, uz. pose proof (sin2_cos2 (rad lat)) as A. pose proof (sin2_cos2 (rad lon)) as B. unfold Rsqr in *. nra.
Qed.

Lemma cauchy3 a b c a' b' c' : Rsqr (dot3 a b c a' b' c') <= dot3 a b c a b c * dot3 a' b' c' a' b' c'.
Proof.
  unfold dot3, Rsqr. pose proof (Rle_0_sqr (a * b' - b * a')). pose proof (Rle_0_sqr (a * c' - c * a')). pose proof (Rle_0_sqr (b * c' - c * b')).
  unfold Rsqr in *. nra.
Qed.

Lemma cos_angle_range lon1 lat1 lon2 lat2 : -1 <= cos_angle lon1 lat1 lon2 lat2 <= 1.
Proof.
  pose proof (cauchy3 (ux lon1 lat1) (uy lon1 lat1) (uz lon1 lat1) (ux lon2 lat2) (uy lon2 lat2) (uz lon2 lat2)) as C.
  rewrite !unit_vec in C. fold (cos_angle lon1 lat1 lon2 lat2) in C. unfold Rsqr in C. nra.
Qed.

(** 2 atan2(sqrt a, sqrt(1-a)) = acos(1-2a) *)
Lemma atan2_acos a : 0 <= a <= 1 -> 2 * ratan2 (sqrt a) (sqrt (1 - a)) = acos (1 - 2 * a).
Proof.
  intros H. unfold ratan2. pose proof (sqrt_pos a) as P. pose proof (sqrt_pos (1 - a)) as Q. pose proof PI_RGT_0.
  destruct (Rlt_bool_spec 0 (sqrt (1 - a))) as [S1|S1].
  - set (t := atan (sqrt a / sqrt (1 - a))).
    assert (Ht : 0 <= t < PI / 2).
    { split; [|unfold t; pose proof (atan_bound (sqrt a / sqrt (1 - a))); lra].
      unfold t. rewrite <- atan_0. destruct (Req_dec a 0) as [->|N].
      - rewrite sqrt_0. unfold Rdiv. rewrite Rmult_0_l. lra.
      - left. apply atan_increasing. apply Rdiv_lt_0_compat; [apply sqrt_lt_R0; lra|auto]. }
    assert (A1 : 0 < 1 - a). { destruct (Req_dec a 1) as [->|]; [replace (1 - 1) with 0 in S1 by ring; rewrite sqrt_0 in S1; lra|lra]. }
    assert (C2 : cos t * cos t = 1 - a).
    { assert (Ct : 0 < cos t) by (apply cos_gt_0; lra).
      assert (T : tan t = sqrt a / sqrt (1 - a)) by (unfold t; apply tan_atan).
      assert (E : sin t = cos t * (sqrt a / sqrt (1 - a))) by (rewrite <- T; unfold tan; field; lra).
      pose proof (sin2_cos2 t) as SC. unfold Rsqr in SC. rewrite E in SC.
      assert (E2 : (sqrt a / sqrt (1 - a)) * (sqrt a / sqrt (1 - a)) = a / (1 - a)).
      { replace ((sqrt a / sqrt (1 - a)) * (sqrt a / sqrt (1 - a))) with ((sqrt a * sqrt a) / (sqrt (1 - a) * sqrt (1 - a))) by (field; lra).
        rewrite !sqrt_sqrt by lra. reflexivity. }
      assert (E3 : cos t * cos t * (a / (1 - a)) + cos t * cos t = 1).
      { rewrite <- E2. rewrite <- SC at 3. ring. }
      assert (E4 : cos t * cos t * (a / (1 - a)) + cos t * cos t = cos t * cos t / (1 - a)) by (field; lra).
      rewrite E4 in E3.
      assert (E5 : cos t * cos t = cos t * cos t / (1 - a) * (1 - a)) by (field; lra). rewrite E5, E3. ring. }
    replace (1 - 2 * a) with (cos (2 * t)); [symmetry; apply acos_cos; lra|].
    rewrite cos_2a_cos. lra.
  - assert (E : a = 1).
    { destruct (Req_dec a 1); auto. pose proof (sqrt_lt_R0 (1 - a)). lra. }
    subst a. replace (sqrt (1 - 1)) with 0 by (rewrite Rminus_diag_eq by reflexivity; rewrite sqrt_0; reflexivity).
    destruct (Rlt_bool_spec 0 0); [lra|]. rewrite sqrt_1. destruct (Rlt_bool_spec 0 1); [|lra].
    replace (1 - 2 * 1) with (cos PI) by (rewrite cos_PI; ring). rewrite acos_cos; lra.
Qed.

Lemma haversine_exact lon1 lat1 lon2 lat2 :
  haversine XRm (XFin lon1 : XR) (XFin lat1 : XR) (XFin lon2 : XR) (XFin lat2 : XR) = (XFin (great_circle lon1 lat1 lon2 lat2) : XR).
Proof.
  unfold haversine. cbv zeta.
  change (m_radians XRm (XFin lon1 : XR)) with (XFin (rad lon1) : XR). change (m_radians XRm (XFin lon2 : XR)) with (XFin (rad lon2) : XR).
  change (m_radians XRm (XFin lat1 : XR)) with (XFin (rad lat1) : XR). change (m_radians XRm (XFin lat2 : XR)) with (XFin (rad lat2) : XR).
  change (n_sub (XFin (rad lon2) : XR) (XFin (rad lon1) : XR)) with (XFin (rad lon2 - rad lon1) : XR).
  change (n_sub (XFin (rad lat2) : XR) (XFin (rad lat1) : XR)) with (XFin (rad lat2 - rad lat1) : XR).
  assert (D : forall x, n_div (XFin x : XR) (n_ofZ 2) = (XFin (x / 2) : XR)).
  { intros x. change (n_div (XFin x : XR) (n_ofZ 2)) with (xdiv (XFin x) (XFin 2) : XR). unfold xdiv. destruct (Req_bool_spec 2 0); [lra|reflexivity]. }
  rewrite !D.
  match goal with |- n_mul _ (n_mul _ (m_atan2 _ (n_sqrt ?a) _)) = _ => change a with (XFin (hav_a lon1 lat1 lon2 lat2) : XR) end.
  set (a := hav_a lon1 lat1 lon2 lat2).
  assert (Ha : 0 <= a <= 1). { unfold a. rewrite hav_a_dot. pose proof (cos_angle_range lon1 lat1 lon2 lat2). lra. }
  change (n_sub one (XFin a : XR)) with (XFin (1 - a) : XR).
  assert (SQ : forall x, 0 <= x -> n_sqrt (XFin x : XR) = (XFin (sqrt x) : XR)).
  { intros x Hx. change (xsqrt (XFin x) = XFin (sqrt x)). unfold xsqrt. destruct (Rlt_bool_spec x 0); [lra|reflexivity]. }
  rewrite !SQ by lra.
  change (XFin (6367 * (2 * ratan2 (sqrt a) (sqrt (1 - a)))) = XFin (great_circle lon1 lat1 lon2 lat2)).
  apply f_equal. rewrite atan2_acos by auto. unfold great_circle. do 2 f_equal. unfold a. rewrite hav_a_dot. field.
Qed.

Lemma cos_angle_sym lon1 lat1 lon2 lat2 : cos_angle lon1 lat1 lon2 lat2 = cos_angle lon2 lat2 lon1 lat1.
Proof. unfold cos_angle, dot3. ring. Qed.

Lemma haversine_range lon1 lat1 lon2 lat2 : exists d,
  haversine XRm (XFin lon1 : XR) (XFin lat1 : XR) (XFin lon2 : XR) (XFin lat2 : XR) = (XFin d : XR) /\
  0 <= d <= 6367 * PI /\
  haversine XRm (XFin lon2 : XR) (XFin lat2 : XR) (XFin lon1 : XR) (XFin lat1 : XR) = (XFin d : XR).
Proof.
  exists (great_circle lon1 lat1 lon2 lat2). split; [apply haversine_exact|]. split.
  - unfold great_circle. pose proof (acos_bound (cos_angle lon1 lat1 lon2 lat2)). lra.
  - rewrite haversine_exact. unfold great_circle. rewrite cos_angle_sym. reflexivity.
Qed.

(** ** metric *)
Lemma great_circle_zero lon1 lat1 lon2 lat2 : great_circle lon1 lat1 lon2 lat2 = 0 <-> same_place lon1 lat1 lon2 lat2.
Proof.
  pose proof (cos_angle_range lon1 lat1 lon2 lat2) as Rg. unfold great_circle. split.
  - intros E. assert (E0 : acos (cos_angle lon1 lat1 lon2 lat2) = 0) by lra.
    assert (C : cos_angle lon1 lat1 lon2 lat2 = 1) by (rewrite <- (cos_acos _ Rg), E0; apply cos_0).
    pose proof (unit_vec lon1 lat1) as U1. pose proof (unit_vec lon2 lat2) as U2. unfold cos_angle, dot3, same_place in *.
    set (a := ux lon1 lat1) in *. set (b := uy lon1 lat1) in *. set (c := uz lon1 lat1) in *.
    set (a' := ux lon2 lat2) in *. set (b' := uy lon2 lat2) in *. set (c' := uz lon2 lat2) in *.
    assert (D : Rsqr (a - a') + Rsqr (b - b') + Rsqr (c - c') = 0) by (unfold Rsqr; nra).
    pose proof (Rle_0_sqr (a - a')). pose proof (Rle_0_sqr (b - b')). pose proof (Rle_0_sqr (c - c')).
    assert (Rsqr (a - a') = 0) as A1 by lra. assert (Rsqr (b - b') = 0) as A2 by lra. assert (Rsqr (c - c') = 0) as A3 by lra.
    apply Rsqr_0_uniq in A1. apply Rsqr_0_uniq in A2. apply Rsqr_0_uniq in A3. repeat split; lra.
  - intros (E1 & E2 & E3). unfold cos_angle. rewrite E1, E2, E3, unit_vec. rewrite acos_1. ring.
Qed.

Lemma angle_triangle a b c a' b' c' a'' b'' c'' :
  dot3 a b c a b c = 1 -> dot3 a' b' c' a' b' c' = 1 -> dot3 a'' b'' c'' a'' b'' c'' = 1 ->
  acos (dot3 a b c a'' b'' c'') <= acos (dot3 a b c a' b' c') + acos (dot3 a' b' c' a'' b'' c'').
Proof.
  intros U V W. set (p := dot3 a b c a' b' c'). set (q := dot3 a' b' c' a'' b'' c''). set (r := dot3 a b c a'' b'' c'').
  assert (Rp : -1 <= p <= 1). { pose proof (cauchy3 a b c a' b' c') as C. fold p in C. rewrite U, V in C. unfold Rsqr in C. nra. }
  assert (Rq : -1 <= q <= 1). { pose proof (cauchy3 a' b' c' a'' b'' c'') as C. fold q in C. rewrite W, V in C. unfold Rsqr in C. nra. }
  assert (Rr : -1 <= r <= 1). { pose proof (cauchy3 a b c a'' b'' c'') as C. fold r in C. rewrite U, W in C. unfold Rsqr in C. nra. }
  pose proof (acos_bound p) as Bp. pose proof (acos_bound q) as Bq. pose proof (acos_bound r) as Br.
  destruct (Rle_dec PI (acos p + acos q)) as [G|G]; [lra|]. apply Rnot_le_lt in G.
  assert (K : cos (acos p + acos q) <= r).
  { rewrite cos_plus, !cos_acos, !sin_acos by auto.
    (* projections of the outer vectors off the middle one *)
    pose proof (cauchy3 (a - p * a') (b - p * b') (c - p * c') (a'' - q * a') (b'' - q * b') (c'' - q * c')) as C.
    assert (D1 : dot3 (a - p * a') (b - p * b') (c - p * c') (a'' - q * a') (b'' - q * b') (c'' - q * c') = r - p * q).
    { replace (dot3 (a - p * a') (b - p * b') (c - p * c') (a'' - q * a') (b'' - q * b') (c'' - q * c'))
        with (r - q * p - p * q + p * q * dot3 a' b' c' a' b' c') by (unfold r, p, q, dot3; ring). rewrite V. ring. }
    assert (D2 : dot3 (a - p * a') (b - p * b') (c - p * c') (a - p * a') (b - p * b') (c - p * c') = 1 - p * p).
    { replace (dot3 (a - p * a') (b - p * b') (c - p * c') (a - p * a') (b - p * b') (c - p * c'))
        with (dot3 a b c a b c - 2 * p * p + p * p * dot3 a' b' c' a' b' c') by (unfold p at 7 8 9, p, dot3; ring). rewrite U, V. ring. }
    assert (D3 : dot3 (a'' - q * a') (b'' - q * b') (c'' - q * c') (a'' - q * a') (b'' - q * b') (c'' - q * c') = 1 - q * q).
    { replace (dot3 (a'' - q * a') (b'' - q * b') (c'' - q * c') (a'' - q * a') (b'' - q * b') (c'' - q * c'))
        with (dot3 a'' b'' c'' a'' b'' c'' - 2 * q * q + q * q * dot3 a' b' c' a' b' c') by (unfold q, dot3; ring). rewrite W, V. ring. }
    rewrite D1, D2, D3 in C. unfold Rsqr in *.
    assert (P1 : 0 <= 1 - p * p) by nra. assert (P2 : 0 <= 1 - q * q) by nra.
    rewrite <- sqrt_mult by auto.
    assert (S : Rabs (r - p * q) <= sqrt ((1 - p * p) * (1 - q * q))).
    { rewrite <- sqrt_Rsqr_abs. apply sqrt_le_1_alt. exact C. }
    pose proof (Rle_abs (- (r - p * q))) as S2. rewrite Rabs_Ropp in S2. lra. }
  rewrite <- (cos_acos r Rr) in K.
  destruct (Rle_dec (acos r) (acos p + acos q)) as [L|L]; auto. apply Rnot_le_lt in L. exfalso.
  apply cos_decreasing_1 in L; lra.
Qed.

Lemma great_circle_triangle lon1 lat1 lon2 lat2 lon3 lat3 :
  great_circle lon1 lat1 lon3 lat3 <= great_circle lon1 lat1 lon2 lat2 + great_circle lon2 lat2 lon3 lat3.
Proof.
  unfold great_circle. pose proof (angle_triangle _ _ _ _ _ _ _ _ _ (unit_vec lon1 lat1) (unit_vec lon2 lat2) (unit_vec lon3 lat3)) as H.
  fold (cos_angle lon1 lat1 lon3 lat3) (cos_angle lon1 lat1 lon2 lat2) (cos_angle lon2 lat2 lon3 lat3) in H. lra.
Qed.

Lemma haversine_metric lon1 lat1 lon2 lat2 lon3 lat3 : exists d12 d23 d13,
  haversine XRm (XFin lon1 : XR) (XFin lat1 : XR) (XFin lon2 : XR) (XFin lat2 : XR) = (XFin d12 : XR) /\
  haversine XRm (XFin lon2 : XR) (XFin lat2 : XR) (XFin lon3 : XR) (XFin lat3 : XR) = (XFin d23 : XR) /\
  haversine XRm (XFin lon1 : XR) (XFin lat1 : XR) (XFin lon3 : XR) (XFin lat3 : XR) = (XFin d13 : XR) /\
  d12 = great_circle lon1 lat1 lon2 lat2 /\
  (d12 = 0 <-> same_place lon1 lat1 lon2 lat2) /\ d13 <= d12 + d23.
Proof.
  eexists _, _, _. split; [apply haversine_exact|]. split; [apply haversine_exact|]. split; [apply haversine_exact|].
  split; [reflexivity|]. split; [apply great_circle_zero|apply great_circle_triangle].
Qed.

(** ** float64 symmetry *)
Lemma f_mul_comm (x y : f64) : f_mul x y = f_mul y x.
Proof.
  unfold f_mul. destruct x as [s|s| |s m e H], y as [s'|s'| |s' m' e' H']; try reflexivity; try (simpl; rewrite xorb_comm; reflexivity).
  apply B2SF_inj. unfold Bmult. rewrite !B2SF_SF2B. rewrite (xorb_comm s s'), (Pos.mul_comm m m'), (Z.add_comm e e'). reflexivity.
Qed.

Lemma f_mul_opp_opp (x : f64) : f_mul (Bopp x) (Bopp x) = f_mul x x.
Proof.
  unfold f_mul. destruct x as [s|s| |s m e H]; try reflexivity; try (destruct s; reflexivity).
  apply B2SF_inj. unfold Bmult, Bopp. rewrite !B2SF_SF2B. destruct s; reflexivity.
Qed.

Lemma overflow_NE s : binary_overflow 53 1024 mode_NE s = SpecFloat.S754_infinity s.
Proof. reflexivity. Qed.

Lemma f_div_opp (x y : f64) : is_finite y = true -> B2R y <> 0 -> f_div (Bopp x) y = Bopp (f_div x y).
Proof.
  intros Fy Ny. unfold f_div. destruct x as [s|s| |s m e H].
  - destruct y as [s'|s'| |s' m' e' H']; try discriminate; [simpl in Ny; lra|]. destruct s, s'; reflexivity.
  - destruct y as [s'|s'| |s' m' e' H']; try discriminate; [simpl in Ny; lra|]. destruct s, s'; reflexivity.
  - destruct y as [s'|s'| |s' m' e' H']; try discriminate; [simpl in Ny; lra|]. reflexivity.
  - set (x := B754_finite s m e H). pose proof (Bdiv_correct 53 1024 _ _ mode_NE x y Ny) as C1.
    pose proof (Bdiv_correct 53 1024 _ _ mode_NE (Bopp x) y Ny) as C2.
    rewrite B2R_Bopp in C2. replace (- B2R x / B2R y) with (- (B2R x / B2R y)) in C2 by (field; auto).
    change (round_mode mode_NE) with ZnearestE in *. rewrite round_NE_opp, Rabs_Ropp in C2.
    set (r := round radix2 (SpecFloat.fexp 53 1024) ZnearestE (B2R x / B2R y)) in *.
    destruct (Rlt_bool (Rabs r) (bpow radix2 1024)).
    + destruct C1 as (V1 & F1 & S1), C2 as (V2 & F2 & S2).
      assert (N1 : is_nan (Bdiv mode_NE x y) = false) by (destruct (Bdiv mode_NE x y); auto; discriminate).
      assert (N2 : is_nan (Bdiv mode_NE (Bopp x) y) = false) by (destruct (Bdiv mode_NE (Bopp x) y); auto; discriminate).
      apply B2R_Bsign_inj.
      * rewrite F2. reflexivity.
      * rewrite is_finite_Bopp, F1. reflexivity.
      * rewrite B2R_Bopp, V1, V2. reflexivity.
      * rewrite Bsign_Bopp by auto. rewrite S1, S2 by auto. unfold x. simpl. destruct s, (Bsign y); reflexivity.
    + apply B2SF_inj. rewrite C2. unfold Bopp at 2. 
      rewrite overflow_NE in *. destruct (Bdiv mode_NE x y); simpl in C1; try discriminate. injection C1 as C1. simpl. f_equal. rewrite C1.
      unfold x. simpl. destruct s, (Bsign y); reflexivity.
Qed.

Lemma f_sub_swap (x y : f64) : f_sub y x = Bopp (f_sub x y) \/ f_sub y x = f_sub x y.
Proof.
  unfold f_sub. destruct (is_finite x) eqn:Fx; [destruct (is_finite y) eqn:Fy|].
  - pose proof (Bminus_correct 53 1024 _ _ mode_NE x y Fx Fy) as C1. pose proof (Bminus_correct 53 1024 _ _ mode_NE y x Fy Fx) as C2.
    change (round_mode mode_NE) with ZnearestE in *.
    replace (B2R y - B2R x) with (- (B2R x - B2R y)) in C2 by ring. rewrite round_NE_opp, Rabs_Ropp in C2.
    set (r := round radix2 (SpecFloat.fexp 53 1024) ZnearestE (B2R x - B2R y)) in *.
    destruct (Rlt_bool (Rabs r) (bpow radix2 1024)).
    + destruct C1 as (V1 & F1 & S1), C2 as (V2 & F2 & S2).
      assert (N1 : is_nan (Bminus mode_NE x y) = false) by (destruct (Bminus mode_NE x y); auto; discriminate).
      destruct (Bool.bool_dec (Bsign (Bminus mode_NE y x)) (negb (Bsign (Bminus mode_NE x y)))) as [E|E].
      * left. apply B2R_Bsign_inj; auto.
        { rewrite is_finite_Bopp. auto. } { rewrite B2R_Bopp, V1, V2. reflexivity. } { rewrite Bsign_Bopp by auto. exact E. }
      * right. assert (E' : Bsign (Bminus mode_NE y x) = Bsign (Bminus mode_NE x y)) by (destruct (Bsign (Bminus mode_NE y x)), (Bsign (Bminus mode_NE x y)); auto; exfalso; apply E; auto).
        apply B2R_Bsign_inj; auto. rewrite V1, V2. rewrite S1, S2 in E'.
        destruct (Rcompare_spec (B2R x - B2R y) 0) as [L|Q|G].
        -- rewrite Rcompare_Gt in E' by lra. discriminate.
        -- unfold r. rewrite Q. rewrite round_0 by apply _. ring.
        -- rewrite Rcompare_Lt in E' by lra. discriminate.
    + left. apply B2SF_inj. destruct C1 as (C1 & D1), C2 as (C2 & D2). rewrite C2. rewrite overflow_NE in *.
      destruct (Bminus mode_NE x y); simpl in C1; try discriminate. injection C1 as C1. simpl. f_equal. rewrite C1, D2. 
      rewrite D1. rewrite !negb_involutive. destruct (Bsign x), (Bsign y); simpl in *; auto; discriminate.
  - destruct y as [s'|s'| |s' m' e' H']; try discriminate; destruct x as [s|s| |s m e H]; try discriminate; try (left; destruct s'; reflexivity); auto.
  - destruct x as [s|s| |s m e H]; try discriminate; destruct y as [s'|s'| |s' m' e' H']; try (left; destruct s; reflexivity); auto;
    destruct s, s'; auto.
Qed.

Lemma haversine_float_sym (L : libm F64) (lon1 lat1 lon2 lat2 : F64) : odd_sin L ->
  haversine L lon1 lat1 lon2 lat2 = haversine L lon2 lat2 lon1 lat1.
Proof.
  intros OS. unfold haversine. cbv zeta.
  set (x1 := m_radians L lon1). set (y1 := m_radians L lat1). set (x2 := m_radians L lon2). set (y2 := m_radians L lat2).
  assert (SQ : forall u v : F64, n_mul (m_sin L (n_div (n_sub v u) (n_ofZ 2))) (m_sin L (n_div (n_sub v u) (n_ofZ 2))) =
     n_mul (m_sin L (n_div (n_sub u v) (n_ofZ 2))) (m_sin L (n_div (n_sub u v) (n_ofZ 2)))).
  { intros u v. destruct (f_sub_swap u v) as [E|E].
    - change (n_sub v u) with (f_sub v u). rewrite E. change (n_div (Bopp (f_sub u v) : F64) (n_ofZ 2)) with (f_div (Bopp (f_sub u v)) (f_ofZ 2)).
      rewrite f_div_opp.
      + change (m_sin L (Bopp (f_div (f_sub u v) (f_ofZ 2)) : F64)) with (m_sin L (n_opp (f_div (f_sub u v) (f_ofZ 2) : F64))).
        destruct (OS (f_div (f_sub u v) (f_ofZ 2))) as [-> | [-> _]]; [apply f_mul_opp_opp|reflexivity].
      + reflexivity.
      + pose proof (val_ofZ _ F64sem 2) as V. change (val F64sem (n_ofZ 2)) with (f_val (f_ofZ 2)) in V.
        assert (V2 : f_val (f_ofZ 2) = XFin 2) by (apply V; compute; discriminate).
        destruct (f_ofZ 2); simpl in V2; try discriminate; try (destruct s; discriminate); injection V2 as V2; simpl; lra.
    - change (n_sub v u) with (f_sub v u). rewrite E. reflexivity. }
  rewrite (SQ y1 y2), (SQ x1 x2). change (n_mul (m_cos L y1) (m_cos L y2)) with (f_mul (m_cos L y1) (m_cos L y2)).
  rewrite (f_mul_comm (m_cos L y1) (m_cos L y2)). reflexivity.
Qed.

Lemma f_of_xr_opp r : f_of_xr (XFin (- r)) = Bopp (f_of_xr (XFin r)) \/
  (f_of_xr (XFin (- r)) = f_of_xr (XFin r) /\ f_val (f_of_xr (XFin r)) = XFin 0).
Proof.
  pose proof (f_of_xr_val (XFin r)) as V1. pose proof (f_of_xr_val (XFin (- r))) as V2. simpl f_rnd in V1, V2.
  assert (RO : rnd64 (- r) = - rnd64 r) by (unfold rnd64; apply round_NE_opp). rewrite RO, Rabs_Ropp in V2.
  destruct (Rlt_bool (Rabs (rnd64 r)) (bpow radix2 1024)) eqn:B.
  - destruct (Req_dec (rnd64 r) 0) as [Z|N].
    + right. split.
      * unfold f_of_xr. rewrite RO, Rabs_Ropp, B, Z, Ropp_0. reflexivity.
      * rewrite V1, Z. reflexivity.
    + left. destruct (f_of_xr (XFin r)) as [s|s| |s m e H]; simpl in V1; try (destruct s; discriminate); try discriminate; try (injection V1 as V1; congruence).
      destruct (f_of_xr (XFin (- r))) as [s'|s'| |s' m' e' H']; simpl in V2; try (destruct s'; discriminate); try discriminate; try (injection V2 as V2; lra).
      injection V1 as V1. injection V2 as V2. apply B2R_inj; try reflexivity. rewrite B2R_Bopp. simpl B2R. lra.
  - left. unfold f_of_xr. rewrite RO, Rabs_Ropp, B. simpl. f_equal.
    destruct (Rlt_bool_spec r 0) as [L|L].
    + rewrite Rlt_bool_false by lra. reflexivity.
    + destruct L as [L|<-]; [rewrite Rlt_bool_true by lra; reflexivity|].
      exfalso. rewrite rnd64_0, Rabs_R0 in B. rewrite Rlt_bool_true in B by apply bpow_gt_0. discriminate.
Qed.

Lemma F64cr_odd_sin : odd_sin F64cr.
Proof.
  intros x. change (m_sin F64cr (n_opp x)) with (f_of_xr (xsin (f_val (Bopp x)))). change (m_sin F64cr x) with (f_of_xr (xsin (f_val x))).
  change (n_opp (f_of_xr (xsin (f_val x)) : F64)) with (Bopp (f_of_xr (xsin (f_val x)))).
  destruct x as [s|s| |s m e H].
  - right. split.
    + simpl. reflexivity.
    + rewrite (val_eqb _ F64sem), (val_0 F64sem). apply xeqb_true. change (val F64sem (f_of_xr (xsin (f_val (B754_zero s)))))
        with (f_val (f_of_xr (XFin (sin 0)))). rewrite f_of_xr_val, sin_0. assert (Z : f_rnd (XFin 0) = XFin 0) by exact (rnd_0 F64sem).
      rewrite Z. auto.
  - left. destruct s; reflexivity.
  - left. reflexivity.
  - set (x := B754_finite s m e H). assert (E : f_val (Bopp x) = XFin (- B2R x)) by (rewrite <- B2R_Bopp; reflexivity).
    rewrite E. change (f_val x) with (XFin (B2R x)). simpl xsin. rewrite sin_neg.
    destruct (f_of_xr_opp (sin (B2R x))) as [O1|[O1 O2]]; [left; exact O1|right]. split; [exact O1|].
    rewrite (val_eqb _ F64sem), (val_0 F64sem). apply xeqb_true. split; [exact O2|].
    change (xisnan (f_val (f_of_xr (XFin (sin (B2R x))))) = false). rewrite O2. reflexivity.
Qed.
