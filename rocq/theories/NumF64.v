(** * IEEE-754 binary64

    The [F64] instance: Flocq's [binary_float 53 1024], round to nearest even.
    This is the arithmetic of numpy / numba float64 values. *)
From Coq Require Import Reals Lra ZArith Bool Lia.
From Flocq Require Import Core IEEE754.BinarySingleNaN.
From Verif Require Import Num.
Local Open Scope R_scope.

Local Arguments bpow : simpl never.
Local Arguments Rlt_bool : simpl never.

Definition f64 : Type := binary_float 53 1024.

#[global] Instance prec53 : Prec_gt_0 53. Proof. reflexivity. Qed.
#[global] Instance emax1024 : Prec_lt_emax 53 1024. Proof. reflexivity. Qed.

Definition f_add : f64 -> f64 -> f64 := Bplus mode_NE.
Definition f_sub : f64 -> f64 -> f64 := Bminus mode_NE.
Definition f_mul : f64 -> f64 -> f64 := Bmult mode_NE.
Definition f_div : f64 -> f64 -> f64 := Bdiv mode_NE.
Definition f_sqrt : f64 -> f64 := Bsqrt mode_NE.
Definition f_rint : f64 -> f64 := Bnearbyint mode_NE.
Definition f_ofZ (z : Z) : f64 := binary_normalize 53 1024 _ _ mode_NE z 0 false.
Definition f_isinf (x : f64) : bool := match x with B754_infinity _ => true | _ => false end.

Canonical Structure F64 : numops := {|
  num := f64;
  n_nan := B754_nan;
  n_ofZ := f_ofZ;
  n_add := f_add; n_sub := f_sub; n_mul := f_mul; n_div := f_div;
  n_opp := Bopp; n_abs := Babs;
  n_sqrt := f_sqrt; n_rint := f_rint;
  n_ltb := Bltb; n_leb := Bleb; n_eqb := Beqb;
  n_isnan := is_nan; n_isinf := f_isinf
|}.

Definition f_val (x : f64) : xr :=
  match x with
  | B754_nan => XNaN
  | B754_infinity true => XNInf
  | B754_infinity false => XPInf
  | _ => XFin (B2R x)
  end.

Notation fexp64 := (SpecFloat.fexp 53 1024).
Definition rnd64 (r : R) : R := round radix2 fexp64 ZnearestE r.

Definition f_rnd (x : xr) : xr :=
  match x with
  | XFin r => if Rlt_bool (Rabs (rnd64 r)) (bpow radix2 1024) then XFin (rnd64 r)
              else if Rlt_bool r 0 then XNInf else XPInf
  | _ => x
  end.

Lemma rnd64_le a b : a <= b -> rnd64 a <= rnd64 b.
Proof. intros; apply round_le; auto; apply _. Qed.

Lemma rnd64_0 : rnd64 0 = 0.
Proof. apply round_0; apply _. Qed.

Lemma f_rnd_mono a b : xleb a b = true -> xleb (f_rnd a) (f_rnd b) = true.
Proof.
  destruct a as [| |ra|], b as [| |rb|]; simpl; try discriminate; auto; intros H;
    try (repeat (destruct (Rlt_bool _ _)); reflexivity).
  assert (L : ra <= rb) by (destruct (Rle_bool_spec ra rb); auto; discriminate).
  pose proof (rnd64_le _ _ L) as L2.
  assert (A : 0 <= ra -> 0 <= rnd64 ra) by (intros; rewrite <- rnd64_0; apply rnd64_le; lra).
  assert (B : rb <= 0 -> rnd64 rb <= 0) by (intros; rewrite <- rnd64_0; apply rnd64_le; lra).
  destruct (Rlt_bool_spec (Rabs (rnd64 ra)) (bpow radix2 1024)) as [Ha|Ha];
  destruct (Rlt_bool_spec (Rabs (rnd64 rb)) (bpow radix2 1024)) as [Hb|Hb]; simpl.
  - apply Rle_bool_true; auto.
  - destruct (Rlt_bool_spec rb 0); auto. exfalso.
    revert Ha Hb. unfold Rabs; repeat destruct Rcase_abs; lra.
  - destruct (Rlt_bool_spec ra 0); auto. exfalso.
    revert Ha Hb. unfold Rabs; repeat destruct Rcase_abs; lra.
  - destruct (Rlt_bool_spec ra 0), (Rlt_bool_spec rb 0); auto. lra.
Qed.

Lemma f_val_finite x : is_finite x = true -> f_val x = XFin (B2R x).
Proof. destruct x as [| [] | | ]; simpl; try discriminate; auto. Qed.

Lemma f_rnd_val x : f_rnd (f_val x) = f_val x.
Proof.
  destruct (is_finite x) eqn:F.
  - rewrite f_val_finite by auto. unfold f_rnd.
    assert (rnd64 (B2R x) = B2R x) as ->.
    { apply round_generic; try apply _. apply generic_format_B2R. }
    rewrite Rlt_bool_true; auto. apply abs_B2R_lt_emax.
  - destruct x as [| [] | | ]; try discriminate; auto.
Qed.

Lemma f_val_overflow z s : B2SF z = binary_overflow 53 1024 mode_NE s ->
  f_val z = if s then XNInf else XPInf.
Proof.
  destruct z as [| sz | | ]; unfold binary_overflow; simpl; destruct s; simpl; try discriminate.
  - intros H; injection H as ->; auto.
  - intros H; injection H as ->; auto.
Qed.

Lemma round_NE_fold r : round radix2 fexp64 (round_mode mode_NE) r = rnd64 r.
Proof. reflexivity. Qed.

Lemma Bsign_true_le (x : f64) : is_finite x = true -> Bsign x = true -> B2R x <= 0.
Proof.
  destruct x as [| | | s m e H]; simpl; try discriminate; intros; subst; try lra.
  apply F2R_le_0; simpl; lia.
Qed.

Lemma Bsign_false_ge (x : f64) : is_finite x = true -> Bsign x = false -> 0 <= B2R x.
Proof.
  destruct x as [| | | s m e H]; simpl; try discriminate; intros; subst; try lra.
  apply F2R_ge_0; simpl; lia.
Qed.

Lemma overflow_neq_0 r : ~ Rabs (rnd64 r) < bpow radix2 1024 -> r <> 0.
Proof.
  intros H ->. apply H. rewrite rnd64_0, Rabs_R0. apply bpow_gt_0.
Qed.

Lemma f_val_ofZ_exact z : (Z.abs z <= 2 ^ 53)%Z -> f_val (f_ofZ z) = XFin (IZR z).
Proof.
  intros Hz. unfold f_ofZ.
  pose proof (binary_normalize_correct 53 1024 _ _ mode_NE z 0 false) as H.
  cbv zeta in H.
  replace (F2R (Float radix2 z 0)) with (IZR z) in H
    by (unfold F2R; simpl; rewrite Rmult_1_r; reflexivity).
  rewrite round_NE_fold in H.
  assert (E : rnd64 (IZR z) = IZR z).
  { apply round_generic; [apply _|].
    replace (IZR z) with (F2R (Float radix2 z 0))
      by (unfold F2R; simpl; rewrite Rmult_1_r; reflexivity).
    destruct (Z.eq_dec (Z.abs z) (2^53)) as [E|NE].
    - (* 2^53 *)
      apply generic_format_abs_inv. rewrite <- F2R_Zabs.
      replace (Z.abs z) with (2^53)%Z. 
      change (F2R {| Fnum := 2^53; Fexp := 0 |}) with (IZR (2^53) * 1).
      rewrite Rmult_1_r. change (2^53)%Z with (radix2 ^ 53)%Z. rewrite IZR_Zpower by lia.
      apply generic_format_bpow. vm_compute; discriminate.
    - apply generic_format_F2R. intros.
      unfold cexp, fexp64. rewrite (mag_F2R_Zdigits) by auto.
      pose proof (Zdigits_le_Zpower radix2 53 z) as D.
      change (Zpower radix2 53)%Z with (2^53)%Z in D.
      assert (Digits.Zdigits radix2 z <= 53)%Z by (apply D; lia).
      unfold SpecFloat.fexp, SpecFloat.emin. lia. }
  rewrite E in H.
  rewrite Rlt_bool_true in H.
  - destruct H as (H1 & H2 & _). rewrite f_val_finite by auto. rewrite H1; auto.
  - rewrite <- abs_IZR. apply Rle_lt_trans with (IZR (2^53)); [apply IZR_le; auto|].
    change (2^53)%Z with (radix2 ^ 53)%Z. rewrite IZR_Zpower by lia. apply bpow_lt; lia.
Qed.

Lemma f_val_add (x y : f64) : f_val (f_add x y) = f_rnd (xadd (f_val x) (f_val y)).
Proof.
  unfold f_add.
  destruct (is_finite x) eqn:Fx; [destruct (is_finite y) eqn:Fy|].
  - rewrite (f_val_finite x), (f_val_finite y) by auto. simpl.
    pose proof (Bplus_correct 53 1024 _ _ mode_NE x y Fx Fy) as H.
    rewrite round_NE_fold in H.
    destruct (Rlt_bool_spec (Rabs (rnd64 (B2R x + B2R y))) (bpow radix2 1024)).
    + destruct H as (H1 & H2 & _). rewrite f_val_finite by auto. f_equal; exact H1.
    + destruct H as (H1 & H2). rewrite (f_val_overflow _ _ H1).
      assert (B2R x + B2R y <> 0) by (apply overflow_neq_0; lra).
      destruct (Bsign x) eqn:Sx.
      * pose proof (Bsign_true_le _ Fx Sx). pose proof (Bsign_true_le _ Fy (eq_sym H2)).
        rewrite Rlt_bool_true by lra; auto.
      * pose proof (Bsign_false_ge _ Fx Sx). pose proof (Bsign_false_ge _ Fy (eq_sym H2)).
        rewrite Rlt_bool_false by lra; auto.
  - rewrite (f_val_finite x) by auto.
    destruct x as [| [] | | ], y as [| [] | | ]; simpl in *; try discriminate; auto.
  - destruct x as [| [] | | ], y as [| [] | | ]; simpl in *; try discriminate; auto.
Qed.

Lemma f_val_opp (x : f64) : f_val (Bopp x) = xopp (f_val x).
Proof.
  destruct (is_finite x) eqn:F.
  - rewrite !f_val_finite by (rewrite ?is_finite_Bopp; auto). simpl. rewrite B2R_Bopp; auto.
  - destruct x as [| [] | | ]; simpl in *; try discriminate; auto.
Qed.

Lemma f_val_abs (x : f64) : f_val (Babs x) = xabs (f_val x).
Proof.
  destruct (is_finite x) eqn:F.
  - rewrite !f_val_finite by (rewrite ?is_finite_Babs; auto). simpl. rewrite B2R_Babs; auto.
  - destruct x as [| [] | | ]; simpl in *; try discriminate; auto.
Qed.

Lemma f_val_sub (x y : f64) : f_val (f_sub x y) = f_rnd (xsub (f_val x) (f_val y)).
Proof.
  unfold f_sub.
  destruct (is_finite x) eqn:Fx; [destruct (is_finite y) eqn:Fy|].
  - rewrite (f_val_finite x), (f_val_finite y) by auto. unfold xsub; simpl.
    pose proof (Bminus_correct 53 1024 _ _ mode_NE x y Fx Fy) as H.
    rewrite round_NE_fold in H. change (B2R x - B2R y) with (B2R x + - B2R y) in H.
    destruct (Rlt_bool_spec (Rabs (rnd64 (B2R x + - B2R y))) (bpow radix2 1024)).
    + destruct H as (H1 & H2 & _). rewrite f_val_finite by auto. f_equal; exact H1.
    + destruct H as (H1 & H2). rewrite (f_val_overflow _ _ H1).
      assert (B2R x + - B2R y <> 0) by (apply overflow_neq_0; lra).
      destruct (Bsign x) eqn:Sx; destruct (Bsign y) eqn:Sy; try discriminate.
      * pose proof (Bsign_true_le _ Fx Sx). pose proof (Bsign_false_ge _ Fy Sy).
        rewrite Rlt_bool_true by lra; auto.
      * pose proof (Bsign_false_ge _ Fx Sx). pose proof (Bsign_true_le _ Fy Sy).
        rewrite Rlt_bool_false by lra; auto.
  - rewrite (f_val_finite x) by auto.
    destruct x as [| [] | | ], y as [| [] | | ]; simpl in *; try discriminate; auto.
  - destruct x as [| [] | | ], y as [| [] | | ]; simpl in *; try discriminate; auto.
Qed.

Lemma sgn_finite s m e (H : SpecFloat.bounded 53 1024 m e = true) :
  Rcompare (B2R (B754_finite s m e H : f64)) 0 = if s then Lt else Gt.
Proof.
  destruct s.
  - apply Rcompare_Lt. simpl. apply F2R_lt_0; simpl; lia.
  - apply Rcompare_Gt. simpl. apply F2R_gt_0; simpl; lia.
Qed.

Lemma sign_product (x y : f64) : is_finite x = true -> is_finite y = true ->
  (xorb (Bsign x) (Bsign y) = true -> B2R x * B2R y <= 0) /\
  (xorb (Bsign x) (Bsign y) = false -> 0 <= B2R x * B2R y).
Proof.
  intros Fx Fy.
  destruct (Bsign x) eqn:Sx, (Bsign y) eqn:Sy; simpl; split; intros; try discriminate;
    try apply (Bsign_true_le _ Fx) in Sx; try apply (Bsign_true_le _ Fy) in Sy;
    try apply (Bsign_false_ge _ Fx) in Sx; try apply (Bsign_false_ge _ Fy) in Sy; nra.
Qed.

Lemma f_val_mul (x y : f64) : f_val (f_mul x y) = f_rnd (xmul (f_val x) (f_val y)).
Proof.
  unfold f_mul.
  destruct (is_finite x) eqn:Fx; [destruct (is_finite y) eqn:Fy|].
  - rewrite (f_val_finite x), (f_val_finite y) by auto. simpl.
    pose proof (Bmult_correct 53 1024 _ _ mode_NE x y) as H.
    rewrite round_NE_fold, Fx, Fy in H.
    destruct (Rlt_bool_spec (Rabs (rnd64 (B2R x * B2R y))) (bpow radix2 1024)).
    + destruct H as (H1 & H2 & _). rewrite f_val_finite by auto. f_equal; exact H1.
    + rewrite (f_val_overflow _ _ H).
      assert (B2R x * B2R y <> 0) by (apply overflow_neq_0; lra).
      destruct (sign_product x y Fx Fy) as [P1 P2].
      destruct (xorb (Bsign x) (Bsign y)).
      * specialize (P1 eq_refl). rewrite Rlt_bool_true by lra; auto.
      * specialize (P2 eq_refl). rewrite Rlt_bool_false by lra; auto.
  - destruct x as [| [] | | [] m e Hx], y as [| [] | | ]; try discriminate; cbn [f_val xmul xsgn];
      rewrite ?sgn_finite; simpl; rewrite ?Rcompare_Eq; auto.
  - destruct x as [| [] | | ? m0 e0 Hx0], y as [| [] | | [] m e Hy]; try discriminate; cbn [f_val xmul xsgn];
      rewrite ?sgn_finite; simpl; rewrite ?Rcompare_Eq; auto.
Qed.

Lemma B2R_finite_neq0 s m e H : B2R (B754_finite s m e H : f64) <> 0.
Proof.
  destruct s; simpl.
  - apply Rlt_not_eq. apply F2R_lt_0; simpl; lia.
  - apply Rgt_not_eq. apply F2R_gt_0; simpl; lia.
Qed.

Lemma f_val_div (x y : f64) : f_val y <> XFin 0 -> f_val (f_div x y) = f_rnd (xdiv (f_val x) (f_val y)).
Proof.
  unfold f_div.
  intros Hy. destruct (is_finite x) eqn:Fx; [destruct (is_finite y) eqn:Fy|].
  - rewrite (f_val_finite y) in Hy by auto.
    assert (Hy0 : B2R y <> 0) by congruence.
    rewrite (f_val_finite x), (f_val_finite y) by auto. simpl.
    pose proof (Bdiv_correct 53 1024 _ _ mode_NE x y Hy0) as H.
    rewrite round_NE_fold, Fx in H. rewrite Req_bool_false by auto. simpl.
    destruct (Rlt_bool_spec (Rabs (rnd64 (B2R x / B2R y))) (bpow radix2 1024)).
    + destruct H as (H1 & H2 & _). rewrite f_val_finite by auto. f_equal; exact H1.
    + rewrite (f_val_overflow _ _ H).
      assert (B2R x / B2R y <> 0) by (apply overflow_neq_0; lra).
      destruct (sign_product x y Fx Fy) as [P1 P2].
      assert (E : B2R x / B2R y = (B2R x * B2R y) * (/ B2R y * / B2R y)) by (field; auto).
      assert (0 < / B2R y * / B2R y).
      { assert (/ B2R y <> 0) by (apply Rinv_neq_0_compat; auto). nra. }
      destruct (xorb (Bsign x) (Bsign y)).
      * specialize (P1 eq_refl). rewrite Rlt_bool_true; auto. nra.
      * specialize (P2 eq_refl). rewrite Rlt_bool_false; auto. nra.
  - destruct x as [| [] | | [] m e Hx], y as [| [] | | ]; try discriminate; cbn [f_val xdiv];
      simpl; rewrite ?rnd64_0, ?Rabs_R0, ?Rlt_bool_true by (apply bpow_gt_0); auto.
  - destruct x as [| [] | | ]; try discriminate; destruct y as [| [] | | [] m e Hy2]; auto;
      try (elim Hy; reflexivity); cbn [f_val xdiv xsgn];
      try (rewrite Rlt_bool_true by (simpl; apply F2R_lt_0; simpl; lia); reflexivity);
      try (rewrite Rlt_bool_false by (simpl; apply F2R_ge_0; simpl; lia); reflexivity).
Qed.

Lemma f_val_0_inv y : f_val y = XFin 0 -> exists s, y = B754_zero s.
Proof.
  destruct y as [s| [] | | s m e H]; try discriminate; eauto.
  unfold f_val. intros E; injection E as E. elim (B2R_finite_neq0 s m e H); exact E.
Qed.

Lemma f_val_div0 (x y : f64) : f_val y = XFin 0 ->
  (xisnan (f_val x) = true \/ f_val x = XFin 0 -> f_val (f_div x y) = XNaN) /\
  (xisnan (f_val x) = false -> f_val x <> XFin 0 -> xisinf (f_val (f_div x y)) = true).
Proof.
  intros H. apply f_val_0_inv in H as [s ->]. split.
  - intros [H|H].
    + destruct x as [| [] | | ]; try discriminate; auto.
    + apply f_val_0_inv in H as [t ->]; auto.
  - intros H1 H2. destruct x as [t| [] | | t m e Hx]; try discriminate; try (elim H2; reflexivity);
    simpl; destruct s; try destruct t; reflexivity.
Qed.

Lemma f_val_sqrt (x : f64) : f_val (f_sqrt x) = f_rnd (xsqrt (f_val x)).
Proof.
  pose proof (Bsqrt_correct 53 1024 _ _ mode_NE x) as (H1 & H2 & _).
  rewrite round_NE_fold in H1.
  destruct x as [s| [] | | s m e Hx]; try (simpl; reflexivity).
  - unfold f_sqrt. rewrite f_val_finite by (rewrite H2; auto). rewrite H1.
    simpl. rewrite Rlt_bool_false by lra. simpl. rewrite sqrt_0, rnd64_0, Rabs_R0.
    rewrite Rlt_bool_true by apply bpow_gt_0; auto.
  - destruct s.
    + unfold f_sqrt. cbn [f_val xsqrt].
      rewrite (Rlt_bool_true (B2R (B754_finite true m e Hx)) 0) by (simpl; apply F2R_lt_0; simpl; lia).
      reflexivity.
    + unfold f_sqrt. assert (F : is_finite (Bsqrt mode_NE (B754_finite false m e Hx : f64)) = true) by (rewrite H2; auto).
      rewrite f_val_finite by auto.
      pose proof (abs_B2R_lt_emax _ _ (Bsqrt mode_NE (B754_finite false m e Hx : f64))) as L.
      rewrite H1 in *. cbn [f_val xsqrt].
      rewrite (Rlt_bool_false (B2R (B754_finite false m e Hx)) 0) by (simpl; apply F2R_ge_0; simpl; lia).
      unfold f_rnd. rewrite Rlt_bool_true; auto.
Qed.

Lemma round_FIX_IZR r : round radix2 (FIX_exp 0) ZnearestE r = IZR (ZnearestE r).
Proof.
  unfold round, scaled_mantissa, cexp, FIX_exp, F2R; simpl.
  rewrite !Rmult_1_r. auto.
Qed.

Lemma f_val_rint (x : f64) : f_val (f_rint x) = xrint (f_val x).
Proof.
  pose proof (Bnearbyint_correct 53 1024 _ mode_NE x) as (H1 & H2 & _).
  change (round_mode mode_NE) with ZnearestE in H1. rewrite round_FIX_IZR in H1.
  destruct (is_finite x) eqn:F.
  - rewrite (f_val_finite x) by auto. unfold f_rint.
    rewrite f_val_finite by auto. simpl. f_equal. exact H1.
  - destruct x as [| [] | | ]; try discriminate; auto.
Qed.

Lemma f_val_ltb (x y : f64) : Bltb x y = xltb (f_val x) (f_val y).
Proof.
  destruct (is_finite x) eqn:Fx; [destruct (is_finite y) eqn:Fy|].
  - rewrite (f_val_finite x), (f_val_finite y) by auto. apply Bltb_correct; auto.
  - rewrite (f_val_finite x) by auto.
    destruct x as [| [] | | [] ? ? ?], y as [| [] | | ]; simpl in *; try discriminate; auto.
  - destruct x as [| [] | | ], y as [| [] | | [] ? ? ?]; simpl in *; try discriminate; auto.
Qed.

Lemma f_val_leb (x y : f64) : Bleb x y = xleb (f_val x) (f_val y).
Proof.
  destruct (is_finite x) eqn:Fx; [destruct (is_finite y) eqn:Fy|].
  - rewrite (f_val_finite x), (f_val_finite y) by auto. apply Bleb_correct; auto.
  - rewrite (f_val_finite x) by auto.
    destruct x as [| [] | | [] ? ? ?], y as [| [] | | ]; simpl in *; try discriminate; auto.
  - destruct x as [| [] | | ], y as [| [] | | [] ? ? ?]; simpl in *; try discriminate; auto.
Qed.

Lemma f_val_eqb (x y : f64) : Beqb x y = xeqb (f_val x) (f_val y).
Proof.
  destruct (is_finite x) eqn:Fx; [destruct (is_finite y) eqn:Fy|].
  - rewrite (f_val_finite x), (f_val_finite y) by auto. apply Beqb_correct; auto.
  - rewrite (f_val_finite x) by auto.
    destruct x as [| [] | | [] ? ? ?], y as [| [] | | ]; simpl in *; try discriminate; auto.
  - destruct x as [| [] | | ], y as [| [] | | [] ? ? ?]; simpl in *; try discriminate; auto.
Qed.

Definition F64sem : numsem F64.
Proof.
  refine {| val := f_val : F64 -> xr; rnd := f_rnd |}.
  - exact f_rnd_mono.
  - intros []; simpl; auto. destruct (Rlt_bool _ _); auto. destruct (Rlt_bool _ _); auto.
  - intros []; simpl; intros; try discriminate; auto.
  - exact f_rnd_val.
  - reflexivity.
  - exact f_val_ofZ_exact.
  - exact f_val_add.
  - exact f_val_sub.
  - exact f_val_mul.
  - exact f_val_div.
  - exact f_val_div0.
  - exact f_val_opp.
  - exact f_val_abs.
  - exact f_val_sqrt.
  - exact f_val_rint.
  - exact f_val_ltb.
  - exact f_val_leb.
  - exact f_val_eqb.
  - intros [| [] | | ]; reflexivity.
  - intros [| [] | | ]; reflexivity.
Defined.

(** Comparing concrete floats in examples: bit-level equality, NaN equal to NaN. *)
Definition f_same (x y : f64) : bool :=
  match B2SF x, B2SF y with
  | SpecFloat.S754_nan, SpecFloat.S754_nan => true
  | SpecFloat.S754_zero a, SpecFloat.S754_zero b => Bool.eqb a b
  | SpecFloat.S754_infinity a, SpecFloat.S754_infinity b => Bool.eqb a b
  | SpecFloat.S754_finite a m e, SpecFloat.S754_finite b n f =>
      Bool.eqb a b && Pos.eqb m n && Z.eqb e f
  | _, _ => false
  end.

Lemma f_same_eq x y : f_same x y = true <-> x = y.
Proof.
  unfold f_same.
  split.
  - intros H. apply B2SF_inj. destruct (B2SF x), (B2SF y); try discriminate; auto.
    + apply eqb_prop in H; congruence.
    + apply eqb_prop in H; congruence.
    + apply andb_prop in H as [H H3]. apply andb_prop in H as [H1 H2].
      apply eqb_prop in H1. apply Pos.eqb_eq in H2. apply Z.eqb_eq in H3. congruence.
  - intros ->. destruct (B2SF y); auto; rewrite ?eqb_reflx; auto.
    rewrite Pos.eqb_refl, Z.eqb_refl; auto.
Qed.

Definition f_same_list (a b : list f64) : bool :=
  Nat.eqb (List.length a) (List.length b) && List.forallb (fun p => f_same (fst p) (snd p)) (List.combine a b).

Notation "'#' z" := (f_ofZ z) (at level 1, z at level 0, format "'#' z").
Definition fNaN : f64 := B754_nan.
