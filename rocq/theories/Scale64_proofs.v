(** * Multiplying float64 data by a power of two

    Without underflow and overflow every operation commutes with it, bit by
    bit. *)
From Coq Require Import Reals Lra ZArith Bool Lia List.
From Flocq Require Import Core IEEE754.BinarySingleNaN.
From Verif Require Import Base Num NumF64 NumList Ulp64.
Import ListNotations.
Local Open Scope R_scope.
Local Arguments bpow : simpl never.
Notation b2 := (bpow radix2).

(** ** rounding *)
Definition far (lo : Z) (r : R) : Prop := r = 0 \/ b2 lo <= Rabs r.

Lemma fexp_big k : (-1021 <= k)%Z -> fexp64 k = (k - 53)%Z.
Proof. intros H. unfold SpecFloat.fexp, SpecFloat.emin. lia. Qed.

Lemma rnd_scale j lo r : far lo r -> (-1022 <= lo)%Z -> (-1022 <= lo + j)%Z -> rnd64 (b2 j * r) = b2 j * rnd64 r.
Proof.
  intros [-> | H] H1 H2; [rewrite Rmult_0_r, rnd64_0; ring|].
  assert (N : r <> 0). { intros ->. rewrite Rabs_R0 in H. pose proof (bpow_gt_0 radix2 lo). lra. }
  apply mag_gt_bpow in H. unfold rnd64, round, F2R, scaled_mantissa, cexp. cbn [Fnum Fexp].
  rewrite (Rmult_comm (b2 j) r), mag_mult_bpow by exact N. rewrite !fexp_big by lia.
  replace (r * b2 j * b2 (- (mag radix2 r + j - 53))) with (r * b2 (- (mag radix2 r - 53))).
  2: { rewrite Rmult_assoc, <- bpow_plus. f_equal. f_equal. lia. }
  replace (mag radix2 r + j - 53)%Z with (j + (mag radix2 r - 53))%Z by lia. rewrite bpow_plus. ring.
Qed.

Lemma rnd_units e r : (-1074 <= e)%Z -> (exists z, r = IZR z * b2 e) -> exists z, rnd64 r = IZR z * b2 e.
Proof.
  intros He [z Hz]. destruct (Z.le_gt_cases (cexp radix2 fexp64 r) e) as [C|C].
  - exists z. rewrite <- Hz. apply rnd64_generic. rewrite Hz. apply (generic_format_F2R radix2 fexp64 z e). intros _. unfold F2R. cbn [Fnum Fexp]. rewrite <- Hz. exact C.
  - unfold rnd64, round, F2R. cbn [Fnum Fexp]. exists (ZnearestE (scaled_mantissa radix2 fexp64 r) * 2 ^ (cexp radix2 fexp64 r - e))%Z.
    rewrite mult_IZR, (IZR_Zpower radix2) by lia. rewrite Rmult_assoc, <- bpow_plus. f_equal. f_equal. lia.
Qed.

Lemma format_units lo r : generic_format radix2 fexp64 r -> far lo r -> (-1022 <= lo)%Z -> exists z, r = IZR z * b2 (lo - 52).
Proof.
  intros G [-> | H] Hl; [exists 0%Z; ring|]. apply mag_gt_bpow in H.
  rewrite G. unfold F2R. cbn [Fnum Fexp]. set (m := Ztrunc _). unfold cexp. rewrite fexp_big by lia.
  exists (m * 2 ^ (mag radix2 r - 53 - (lo - 52)))%Z. rewrite mult_IZR, (IZR_Zpower radix2) by lia. rewrite Rmult_assoc, <- bpow_plus. f_equal. f_equal. lia.
Qed.

Lemma units_far e r : (exists z, r = IZR z * b2 e) -> far e r.
Proof.
  intros [z ->]. destruct (Z.eq_dec z 0) as [-> | N]; [left; ring|right]. rewrite Rabs_mult, (Rabs_pos_eq (b2 e)) by apply bpow_ge_0.
  rewrite <- abs_IZR. assert (1 <= IZR (Z.abs z)) by (apply IZR_le; lia). pose proof (bpow_ge_0 radix2 e). nra.
Qed.

Lemma bpow_format k : (-1074 <= k)%Z -> generic_format radix2 fexp64 (b2 k).
Proof. intros H. apply generic_format_bpow. unfold SpecFloat.fexp, SpecFloat.emin. lia. Qed.

Lemma rnd_far lo r : (-1074 <= lo)%Z -> far lo r -> far lo (rnd64 r).
Proof. intros Hl [-> | H]; [left; apply rnd64_0|right]. apply abs_round_ge_generic; try apply _; auto. apply bpow_format. exact Hl. Qed.

Lemma rnd_bound M r : generic_format radix2 fexp64 M -> Rabs r <= M -> Rabs (rnd64 r) <= M.
Proof. intros G H. apply abs_round_le_generic; try apply _; auto. Qed.

(** ** the relation *)
(** [y] is [x] times [2 ^ j]; [x] is a multiple of [2 ^ e] of size at most [M] *)
Record fsc (j e : Z) (M : R) (x y : f64) : Prop := {
  fs_x : is_finite x = true; fs_y : is_finite y = true; fs_sign : Bsign x = Bsign y;
  fs_val : B2R y = b2 j * B2R x; fs_units : exists z, B2R x = IZR z * b2 e; fs_le : Rabs (B2R x) <= M }.

Definition small (M : R) : Prop := generic_format radix2 fexp64 M /\ M <= b2 800.
Lemma small_bpow k : (-1074 <= k <= 800)%Z -> small (b2 k).
Proof. intros H. split; [apply bpow_format; lia|apply bpow_le; lia]. Qed.

Lemma in_range j M r : (Z.abs j <= 200)%Z -> small M -> Rabs r <= M ->
  Rlt_bool (Rabs (rnd64 r)) (b2 1024) = true /\ Rlt_bool (Rabs (rnd64 (b2 j * r))) (b2 1024) = true.
Proof.
  intros Hj [G HM] H. split; apply Rlt_bool_true.
  - apply Rle_lt_trans with (b2 800); [|apply bpow_lt; lia]. pose proof (rnd_bound M r G H). lra.
  - apply Rle_lt_trans with (b2 1000); [|apply bpow_lt; lia]. apply rnd_bound; [apply bpow_format; lia|].
    rewrite Rabs_mult, (Rabs_pos_eq (b2 j)) by apply bpow_ge_0.
    replace (b2 1000) with (b2 200 * b2 800) by (rewrite <- bpow_plus; reflexivity).
    apply Rmult_le_compat; [apply bpow_ge_0|apply Rabs_pos|apply bpow_le; lia|lra].
Qed.

Lemma rcompare_scale j r : Rcompare (b2 j * r) 0 = Rcompare r 0.
Proof. replace 0 with (b2 j * 0) at 1 by ring. apply Rcompare_mult_l. apply bpow_gt_0. Qed.

Lemma fsc_le j e M M' x y : M <= M' -> fsc j e M x y -> fsc j e M' x y.
Proof. intros H []. constructor; auto. lra. Qed.

Lemma fsc_add j e M1 M2 M x y x' y' : (Z.abs j <= 200)%Z -> (-800 <= e)%Z -> small M -> M1 + M2 <= M ->
  fsc j e M1 x y -> fsc j e M2 x' y' -> fsc j e M (f_add x x') (f_add y y').
Proof.
  intros Hj He HM HS [X1 X2 X3 X4 [zx X5] X6] [Y1 Y2 Y3 Y4 [zy Y5] Y6].
  assert (U : exists z, B2R x + B2R x' = IZR z * b2 e) by (exists (zx + zy)%Z; rewrite plus_IZR, X5, Y5; ring).
  assert (LE : Rabs (B2R x + B2R x') <= M) by (pose proof (Rabs_triang (B2R x) (B2R x')); lra).
  destruct (in_range j M _ Hj HM LE) as [R1 R2].
  pose proof (Bplus_correct 53 1024 _ _ mode_NE x x' X1 Y1) as P. rewrite round_NE_fold, R1 in P. destruct P as (P1 & P2 & P3).
  assert (EQ : B2R y + B2R y' = b2 j * (B2R x + B2R x')) by (rewrite X4, Y4; ring).
  pose proof (Bplus_correct 53 1024 _ _ mode_NE y y' X2 Y2) as Q. rewrite round_NE_fold, EQ, R2 in Q. destruct Q as (Q1 & Q2 & Q3).
  rewrite (rnd_scale j e) in Q1 by (try lia; apply units_far; auto). rewrite rcompare_scale in Q3.
  constructor; unfold f_add; auto.
  - rewrite P3, Q3, X3, Y3. reflexivity.
  - rewrite Q1, P1. reflexivity.
  - rewrite P1. apply rnd_units; [lia|auto].
  - rewrite P1. apply rnd_bound; [apply HM|auto].
Qed.

Lemma fsc_sub j e M1 M2 M x y x' y' : (Z.abs j <= 200)%Z -> (-800 <= e)%Z -> small M -> M1 + M2 <= M ->
  fsc j e M1 x y -> fsc j e M2 x' y' -> fsc j e M (f_sub x x') (f_sub y y').
Proof.
  intros Hj He HM HS [X1 X2 X3 X4 [zx X5] X6] [Y1 Y2 Y3 Y4 [zy Y5] Y6].
  assert (U : exists z, B2R x - B2R x' = IZR z * b2 e) by (exists (zx - zy)%Z; rewrite minus_IZR, X5, Y5; ring).
  assert (LE : Rabs (B2R x - B2R x') <= M).
  { unfold Rminus. pose proof (Rabs_triang (B2R x) (- B2R x')). rewrite Rabs_Ropp in H. lra. }
  destruct (in_range j M _ Hj HM LE) as [R1 R2].
  pose proof (Bminus_correct 53 1024 _ _ mode_NE x x' X1 Y1) as P. rewrite round_NE_fold, R1 in P. destruct P as (P1 & P2 & P3).
  assert (EQ : B2R y - B2R y' = b2 j * (B2R x - B2R x')) by (rewrite X4, Y4; ring).
  pose proof (Bminus_correct 53 1024 _ _ mode_NE y y' X2 Y2) as Q. rewrite round_NE_fold, EQ, R2 in Q. destruct Q as (Q1 & Q2 & Q3).
  rewrite (rnd_scale j e) in Q1 by (try lia; apply units_far; auto). rewrite rcompare_scale in Q3.
  constructor; unfold f_sub; auto.
  - rewrite P3, Q3, X3, Y3. reflexivity.
  - rewrite Q1, P1. reflexivity.
  - rewrite P1. apply rnd_units; [lia|auto].
  - rewrite P1. apply rnd_bound; [apply HM|auto].
Qed.

Lemma finite_not_nan (x : f64) : is_finite x = true -> is_nan x = false.
Proof. destruct x; simpl; congruence. Qed.

Lemma fsc_mul j k e e' M1 M2 M x y x' y' : (Z.abs (j + k) <= 200)%Z -> (-800 <= e + e')%Z -> small M -> M1 * M2 <= M ->
  fsc j e M1 x y -> fsc k e' M2 x' y' -> fsc (j + k) (e + e') M (f_mul x x') (f_mul y y').
Proof.
  intros Hj He HM HS [X1 X2 X3 X4 [zx X5] X6] [Y1 Y2 Y3 Y4 [zy Y5] Y6].
  assert (U : exists z, B2R x * B2R x' = IZR z * b2 (e + e')) by (exists (zx * zy)%Z; rewrite mult_IZR, X5, Y5, bpow_plus; ring).
  assert (LE : Rabs (B2R x * B2R x') <= M).
  { rewrite Rabs_mult. apply Rle_trans with (M1 * M2); [|exact HS]. apply Rmult_le_compat; auto; apply Rabs_pos. }
  destruct (in_range (j + k) M _ Hj HM LE) as [R1 R2].
  pose proof (Bmult_correct 53 1024 _ _ mode_NE x x') as P. rewrite round_NE_fold, R1, X1, Y1 in P. destruct P as (P1 & P2 & P3).
  assert (EQ : B2R y * B2R y' = b2 (j + k) * (B2R x * B2R x')) by (rewrite X4, Y4, bpow_plus; ring).
  pose proof (Bmult_correct 53 1024 _ _ mode_NE y y') as Q. rewrite round_NE_fold, EQ, R2, X2, Y2 in Q. destruct Q as (Q1 & Q2 & Q3).
  rewrite (rnd_scale (j + k) (e + e')) in Q1 by (try lia; apply units_far; auto).
  constructor; unfold f_mul; auto.
  - rewrite P3, Q3, X3, Y3; auto using finite_not_nan.
  - rewrite Q1, P1. reflexivity.
  - rewrite P1. apply rnd_units; [lia|auto].
  - rewrite P1. apply rnd_bound; [apply HM|auto].
Qed.

(** division by a number that is not zero *)
Lemma fsc_div j k e e' M h M' x y x' y' : (Z.abs (j - k) <= 200)%Z -> (-800 <= e - h)%Z -> small M' -> M * b2 (- e') <= M' -> 0 <= M ->
  fsc j e M x y -> fsc k e' (b2 h) x' y' -> B2R x' <> 0 -> fsc (j - k) (e - h - 52) M' (f_div x x') (f_div y y').
Proof.
  intros Hj He HM HS H0 [X1 X2 X3 X4 X5 X6] [Y1 Y2 Y3 Y4 Y5 Y6] NZ.
  assert (PA : 0 < Rabs (B2R x')) by (apply Rabs_pos_lt; exact NZ).
  assert (LO : b2 e' <= Rabs (B2R x')) by (destruct (units_far _ _ Y5); [contradiction|assumption]).
  assert (FAR : far (e - h) (B2R x / B2R x')).
  { destruct (units_far _ _ X5) as [E|E]; [left; rewrite E; unfold Rdiv; ring|right].
    unfold Rdiv. rewrite Rabs_mult, Rabs_inv. replace (e - h)%Z with (e + - h)%Z by lia. rewrite bpow_plus, bpow_opp.
    apply Rmult_le_compat; try apply bpow_ge_0; auto. { left. apply Rinv_0_lt_compat, bpow_gt_0. } apply Rinv_le; auto. }
  assert (LE : Rabs (B2R x / B2R x') <= M').
  { unfold Rdiv. rewrite Rabs_mult, Rabs_inv. apply Rle_trans with (M * b2 (- e')); [|exact HS]. rewrite bpow_opp.
    apply Rmult_le_compat; auto; try apply Rabs_pos. { left. apply Rinv_0_lt_compat. exact PA. } apply Rinv_le; auto. apply bpow_gt_0. }
  destruct (in_range (j - k) M' _ Hj HM LE) as [R1 R2].
  pose proof (Bdiv_correct 53 1024 _ _ mode_NE x x' NZ) as P. rewrite round_NE_fold, R1, X1 in P. destruct P as (P1 & P2 & P3).
  assert (B1 : b2 k <> 0) by (pose proof (bpow_gt_0 radix2 k); lra).
  assert (NZ' : B2R y' <> 0) by (rewrite Y4; apply Rmult_integral_contrapositive; auto).
  assert (EQ : B2R y / B2R y' = b2 (j - k) * (B2R x / B2R x')).
  { rewrite X4, Y4. replace (j - k)%Z with (j + - k)%Z by lia. rewrite bpow_plus, bpow_opp. field. auto. }
  pose proof (Bdiv_correct 53 1024 _ _ mode_NE y y' NZ') as Q. rewrite round_NE_fold, EQ, R2, X2 in Q. destruct Q as (Q1 & Q2 & Q3).
  rewrite (rnd_scale (j - k) (e - h)) in Q1 by (try lia; exact FAR).
  constructor; unfold f_div; auto.
  - rewrite P3, Q3, X3, Y3; auto using finite_not_nan.
  - rewrite Q1, P1. reflexivity.
  - rewrite P1. apply format_units; [apply rnd64_format|apply rnd_far; [lia|exact FAR]|lia].
  - rewrite P1. apply rnd_bound; [apply HM|auto].
Qed.

(** the same special value, or scaled *)
Definition sc (j e : Z) (M : R) (x y : f64) : Prop := (is_finite x = false /\ x = y) \/ fsc j e M x y.

Lemma zero_B2R (x : f64) : is_finite x = true -> B2R x = 0 -> x = B754_zero (Bsign x).
Proof.
  destruct x as [s|s| |s m e H]; simpl; try discriminate; auto. intros _ E. exfalso.
  destruct s; [apply (Rlt_irrefl 0); rewrite <- E at 1; apply F2R_lt_0|apply (Rlt_irrefl 0); rewrite <- E at 2; apply F2R_gt_0]; simpl; lia.
Qed.

Lemma fsc_div_any j k e e' M h M' x y x' y' : (Z.abs (j - k) <= 200)%Z -> (-800 <= e - h)%Z -> small M' -> M * b2 (- e') <= M' -> 0 <= M ->
  fsc j e M x y -> fsc k e' (b2 h) x' y' -> sc (j - k) (e - h - 52) M' (f_div x x') (f_div y y').
Proof.
  intros Hj He HM HS H0 HX HY. destruct (Req_dec (B2R x') 0) as [Z|NZ]; [left|right; eapply fsc_div; eauto].
  destruct HX as [X1 X2 X3 X4 X5 X6], HY as [Y1 Y2 Y3 Y4 Y5 Y6].
  rewrite (zero_B2R x' Y1 Z). assert (Z' : B2R y' = 0) by (rewrite Y4, Z; ring). rewrite (zero_B2R y' Y2 Z'), <- Y3.
  destruct x as [s|s| |s m ex H]; try discriminate X1; destruct y as [s'|s'| |s' m' ex' H']; try discriminate X2; simpl in X3; subst s'.
  - split; reflexivity.
  - exfalso. simpl (B2R (B754_zero s)) in X4. rewrite Rmult_0_r in X4.
    pose proof (zero_B2R (B754_finite s m' ex' H') eq_refl X4). discriminate.
  - exfalso. simpl (B2R (B754_zero s)) in X4. symmetry in X4. apply Rmult_integral in X4 as [X4|X4].
    + pose proof (bpow_gt_0 radix2 j). lra.
    + pose proof (zero_B2R (B754_finite s m ex H) eq_refl X4). discriminate.
  - split; reflexivity.
Qed.

Lemma fsc_sqrt j e h x y : (Z.abs j <= 200)%Z -> (-800 <= e)%Z -> (-1000 <= h <= 800)%Z ->
  fsc (2 * j) (2 * e) (b2 (2 * h)) x y ->
  (f_sqrt x = B754_nan /\ f_sqrt y = B754_nan) \/ fsc j (e - 52) (b2 h) (f_sqrt x) (f_sqrt y).
Proof.
  intros Hj He Hh [X1 X2 X3 X4 X5 X6].
  destruct x as [s|s| |s m ex H]; try discriminate X1.
  - assert (Z' : B2R y = 0) by (rewrite X4; simpl; ring). rewrite (zero_B2R y X2 Z'), <- X3. right. unfold f_sqrt. simpl.
    constructor; simpl; auto; [ring|exists 0%Z; ring|rewrite Rabs_R0; apply bpow_ge_0].
  - destruct y as [s'|s'| |s' m' ex' H']; try discriminate X2; simpl in X3; subst s'.
    { exfalso. simpl (B2R (B754_zero s)) in X4. symmetry in X4. apply Rmult_integral in X4 as [X4|X4].
      - pose proof (bpow_gt_0 radix2 (2 * j)). lra.
      - pose proof (zero_B2R (B754_finite s m ex H) eq_refl X4). discriminate. }
    destruct s; [left; split; reflexivity|right].
    set (x := B754_finite false m ex H : f64) in *. set (y := B754_finite false m' ex' H' : f64) in *.
    assert (PX : 0 < B2R x) by (apply F2R_gt_0; reflexivity).
    assert (B2P : forall k, b2 (2 * k) = b2 k * b2 k) by (intros k; rewrite <- bpow_plus; f_equal; lia).
    assert (SB : forall k, sqrt (b2 (2 * k)) = b2 k) by (intros k; rewrite B2P; apply sqrt_square, bpow_ge_0).
    assert (FAR : far e (sqrt (B2R x))).
    { right. rewrite Rabs_pos_eq by apply sqrt_pos. rewrite <- SB. apply sqrt_le_1_alt. destruct (units_far _ _ X5) as [E|E]; [lra|]. rewrite Rabs_pos_eq in E by lra. exact E. }
    assert (LE : Rabs (sqrt (B2R x)) <= b2 h).
    { rewrite Rabs_pos_eq by apply sqrt_pos. rewrite <- SB. apply sqrt_le_1_alt. rewrite Rabs_pos_eq in X6 by lra. exact X6. }
    pose proof (Bsqrt_correct 53 1024 _ _ mode_NE x) as (P1 & P2 & P3). rewrite round_NE_fold in P1.
    pose proof (Bsqrt_correct 53 1024 _ _ mode_NE y) as (Q1 & Q2 & Q3). rewrite round_NE_fold in Q1.
    assert (F1 : is_finite (f_sqrt x) = true) by exact P2. assert (F2 : is_finite (f_sqrt y) = true) by exact Q2.
    rewrite X4, sqrt_mult_alt, SB, (rnd_scale j e) in Q1 by (try lia; auto using bpow_ge_0).
    constructor; auto.
    + unfold f_sqrt in *. rewrite P3, Q3; auto using finite_not_nan.
    + unfold f_sqrt. rewrite Q1, P1. reflexivity.
    + unfold f_sqrt. rewrite P1. apply format_units; [apply rnd64_format|apply rnd_far; [lia|exact FAR]|lia].
    + unfold f_sqrt. rewrite P1. apply rnd_bound; [apply bpow_format; lia|auto].
Qed.

Lemma fsc_zeros j e M x y : fsc j e M x y -> (exists s, x = B754_zero s /\ y = B754_zero s) \/
  (exists s m ex H m' ex' H', x = B754_finite s m ex H /\ y = B754_finite s m' ex' H').
Proof.
  intros [X1 X2 X3 X4 X5 X6]. destruct x as [s|s| |s m ex H]; try discriminate X1; destruct y as [s'|s'| |s' m' ex' H']; try discriminate X2; simpl in X3; subst s'.
  - left. eauto.
  - exfalso. simpl (B2R (B754_zero s)) in X4. rewrite Rmult_0_r in X4.
    pose proof (zero_B2R (B754_finite s m' ex' H') eq_refl X4). discriminate.
  - exfalso. simpl (B2R (B754_zero s)) in X4. symmetry in X4. apply Rmult_integral in X4 as [X4|X4].
    + pose proof (bpow_gt_0 radix2 j). lra.
    + pose proof (zero_B2R (B754_finite s m ex H) eq_refl X4). discriminate.
  - right. eauto 10.
Qed.

Lemma fsc_mul_inf j e M x y : fsc j e M x y -> f_mul x (B754_infinity false) = f_mul y (B754_infinity false).
Proof. intros H. destruct (fsc_zeros _ _ _ _ _ H) as [(s & -> & ->)|(s & m & ex & B & m' & ex' & B' & -> & ->)]; reflexivity. Qed.

Lemma div_special j e M (s x y : f64) : is_finite s = false -> fsc j e M x y -> f_div s x = f_div s y /\ is_finite (f_div s x) = false.
Proof.
  intros Hs H. destruct s as [|s| |]; try discriminate Hs;
    destruct (fsc_zeros _ _ _ _ _ H) as [(s' & -> & ->)|(s' & m & ex & B & m' & ex' & B' & -> & ->)]; split; reflexivity.
Qed.

Lemma fsc_abs j e M x y : fsc j e M x y -> fsc j e M (Babs x) (Babs y).
Proof.
  intros [X1 X2 X3 X4 [z X5] X6]. constructor; rewrite ?is_finite_Babs, ?Bsign_Babs, ?B2R_Babs; auto.
  - rewrite X4, Rabs_mult, (Rabs_pos_eq (b2 j)) by apply bpow_ge_0. reflexivity.
  - exists (Z.abs z). rewrite X5, Rabs_mult, (Rabs_pos_eq (b2 e)), abs_IZR by apply bpow_ge_0. reflexivity.
  - rewrite Rabs_Rabsolu. exact X6.
Qed.

Lemma fsc_ltb j e e' M M' x y x' y' : fsc j e M x y -> fsc j e' M' x' y' -> Bltb y y' = Bltb x x'.
Proof.
  intros [X1 X2 X3 X4 X5 X6] [Y1 Y2 Y3 Y4 Y5 Y6]. rewrite !Bltb_correct by auto. rewrite X4, Y4. pose proof (bpow_gt_0 radix2 j) as B.
  destruct (Rlt_bool_spec (B2R x) (B2R x')); [apply Rlt_bool_true|apply Rlt_bool_false]; nra.
Qed.

(** exponent 0: the same number *)
Lemma sc_same e M x y : sc 0 e M x y -> x = y.
Proof.
  intros [[_ H]|[X1 X2 X3 X4 X5 X6]]; [exact H|]. apply B2R_Bsign_inj; auto. rewrite X4. unfold bpow. simpl. ring.
Qed.

Lemma fsc_same e M x : is_finite x = true -> (exists z, B2R x = IZR z * b2 e) -> Rabs (B2R x) <= M -> fsc 0 e M x x.
Proof. intros. constructor; auto. change (b2 0) with 1. ring. Qed.

(** ** the factor as a float *)
Section Factor.
Variables (c : f64) (j : Z).
Hypothesis Hc : f_val c = XFin (b2 j).

Lemma c_finite : is_finite c = true /\ B2R c = b2 j /\ Bsign c = false.
Proof.
  assert (F : is_finite c = true) by (revert Hc; destruct c as [|[]| |]; intros Hc; try reflexivity; discriminate Hc).
  split; [exact F|]. rewrite f_val_finite in Hc by exact F. injection Hc as E. split; [exact E|].
  destruct (Bsign c) eqn:S; [|reflexivity]. pose proof (Bsign_true_le c F S). pose proof (bpow_gt_0 radix2 j). lra.
Qed.

Lemma mul_special x : is_finite x = false -> f_mul c x = x.
Proof.
  destruct c_finite as (F & E & S). intros H. destruct x as [|s| |]; try discriminate.
  - destruct c as [sc'|sc'| |sc' mc ec Hbc]; try discriminate F.
    + exfalso. simpl in E. pose proof (bpow_gt_0 radix2 j). lra.
    + simpl in S. subst sc'. destruct s; reflexivity.
  - destruct c; reflexivity.
Qed.

Lemma fsc_is_mul e M x y : fsc j e M x y -> y = f_mul c x.
Proof.
  destruct c_finite as (F & E & S). intros [X1 X2 X3 X4 X5 X6].
  pose proof (Bmult_correct 53 1024 _ _ mode_NE c x) as P. rewrite round_NE_fold, E, <- X4 in P.
  rewrite rnd64_generic in P by apply generic_format_B2R. rewrite Rlt_bool_true in P by apply abs_B2R_lt_emax.
  destruct P as (P1 & P2 & P3). rewrite F, X1 in P2. specialize (P3 (finite_not_nan _ P2)).
  apply B2R_Bsign_inj; auto. unfold f_mul. rewrite P3, S, <- X3. destruct (Bsign x); reflexivity.
Qed.

Lemma sc_is_mul e M x y : sc j e M x y -> y = f_mul c x.
Proof. intros [[H <-]|H]; [symmetry; apply mul_special; exact H|eapply fsc_is_mul; eauto]. Qed.

Lemma mul_fsc e M x : (Z.abs j <= 200)%Z -> (-800 <= e)%Z -> small M -> is_finite x = true -> (exists z, B2R x = IZR z * b2 e) -> Rabs (B2R x) <= M ->
  fsc j e M x (f_mul c x).
Proof.
  destruct c_finite as (F & E & S). intros Hj He HM Hx HU HL.
  pose proof (Bmult_correct 53 1024 _ _ mode_NE c x) as P. rewrite round_NE_fold, E, F, Hx in P.
  destruct (in_range j M _ Hj HM HL) as [_ R2]. rewrite R2 in P. destruct P as (P1 & P2 & P3). specialize (P3 (finite_not_nan _ P2)).
  rewrite (rnd_scale j e) in P1 by (try lia; apply units_far; auto). rewrite rnd64_generic in P1 by apply generic_format_B2R.
  constructor; auto. unfold f_mul. rewrite P3, S. destruct (Bsign x); reflexivity.
Qed.
End Factor.
