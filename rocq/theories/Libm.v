(** * The C math library

    [libm O]: the elementary functions as an explicit argument of the models.
    [XRm]: the exact real functions.  [pow_sane] / [pow_mono] etc.: the facts
    about a floating-point library that float64 theorems assume, always as
    explicit hypotheses. *)
From Coq Require Import Reals Lra ZArith Bool Psatz.
From Flocq Require Import Core.
From Verif Require Import Base Num.
Local Open Scope R_scope.

Record libm (O : numops) : Type := mk_libm {
  m_pow : O -> O -> O;
  m_exp : O -> O;
  m_log : O -> O;
  m_sin : O -> O;
  m_cos : O -> O;
  m_atan2 : O -> O -> O;
  m_radians : O -> O
}.
Arguments m_pow {_} _ _ _.
Arguments m_exp {_} _ _.
Arguments m_log {_} _ _.
Arguments m_sin {_} _ _.
Arguments m_cos {_} _ _.
Arguments m_atan2 {_} _ _ _.
Arguments m_radians {_} _ _.

(** C99 pow on extended reals (zero is unsigned). *)
Definition is_int (b : R) : bool := Req_bool (IZR (Zfloor b)) b.
Definition is_odd (b : R) : bool := is_int b && Z.odd (Zfloor b).
Definition xpow (x y : xr) : xr :=
  match x, y with
  | _, XFin b =>
    if Req_bool b 0 then XFin 1 else
    match x with
    | XNaN => XNaN
    | XPInf => if Rlt_bool 0 b then XPInf else XFin 0
    | XNInf => if Rlt_bool 0 b then (if is_odd b then XNInf else XPInf) else XFin 0
    | XFin a =>
      if Rlt_bool 0 a then XFin (Rpower a b)
      else if Req_bool a 0 then (if Rlt_bool 0 b then XFin 0 else XPInf)
      else if is_int b then XFin (powerRZ a (Zfloor b)) else XNaN
    end
  | XFin a, XNaN => if Req_bool a 1 then XFin 1 else XNaN
  | _, XNaN => XNaN
  | XNaN, _ => XNaN
  | XFin a, XPInf =>
    if Rlt_bool (Rabs a) 1 then XFin 0 else if Req_bool (Rabs a) 1 then XFin 1 else XPInf
  | XFin a, XNInf =>
    if Rlt_bool (Rabs a) 1 then XPInf else if Req_bool (Rabs a) 1 then XFin 1 else XFin 0
  | _, XPInf => XPInf
  | _, XNInf => XFin 0
  end.

Definition xexp (x : xr) : xr :=
  match x with XNaN => XNaN | XNInf => XFin 0 | XFin a => XFin (exp a) | XPInf => XPInf end.
Definition xlog (x : xr) : xr :=
  match x with
  | XNaN | XNInf => XNaN
  | XPInf => XPInf
  | XFin a => if Rlt_bool 0 a then XFin (ln a) else if Req_bool a 0 then XNInf else XNaN
  end.
Definition xsin (x : xr) : xr := match x with XFin a => XFin (sin a) | _ => XNaN end.
Definition xcos (x : xr) : xr := match x with XFin a => XFin (cos a) | _ => XNaN end.
(** atan2 for finite arguments (zero unsigned); NaN for infinities, which no proof relies on *)
Definition ratan2 (y x : R) : R :=
  if Rlt_bool 0 x then atan (y / x)
  else if Rlt_bool x 0 then (if Rlt_bool y 0 then atan (y / x) - PI else atan (y / x) + PI)
  else if Rlt_bool 0 y then PI / 2 else if Rlt_bool y 0 then - (PI / 2) else 0.
Definition xatan2 (y x : xr) : xr := match y, x with XFin b, XFin a => XFin (ratan2 b a) | _, _ => XNaN end.
(** [np.radians] *)
Definition xradians (x : xr) : xr := xmul x (XFin (PI / 180)).

Definition XRm : libm XR := mk_libm XR xpow xexp xlog xsin xcos xatan2 xradians.

Section Laws.
Context {O : numops} (L : libm O).
(** C99 F.9.4.4: a non-negative base and a non-negative exponent give a
    non-negative number, never NaN. *)
Definition pow_sane : Prop := forall x y : O,
  n_leb (n_ofZ 0) x = true -> n_leb (n_ofZ 0) y = true -> n_leb (n_ofZ 0) (m_pow L x y) = true.
(** monotone in a non-negative base for a non-negative exponent *)
Definition pow_mono : Prop := forall x x' y : O,
  n_leb (n_ofZ 0) x = true -> n_leb x x' = true -> n_leb (n_ofZ 0) y = true ->
  n_leb (m_pow L x y) (m_pow L x' y) = true.
End Laws.

Lemma xpow_pos a b : 0 < a -> xpow (XFin a) (XFin b) = XFin (Rpower a b).
Proof.
  intros. unfold xpow. xcases; try lra; auto.
  subst. f_equal. rewrite Rpower_O; auto.
Qed.

Lemma xpow_0 b : 0 < b -> xpow (XFin 0) (XFin b) = XFin 0.
Proof. intros. unfold xpow. xcases; try lra; auto. Qed.

Lemma Rpower_pos a b : 0 < Rpower a b.
Proof. unfold Rpower. apply exp_pos. Qed.

Lemma xleb_fin a b : xleb (XFin a) (XFin b) = true <-> a <= b.
Proof. simpl. xcases; split; auto; intros; try lra; discriminate. Qed.

Lemma xltb_fin a b : xltb (XFin a) (XFin b) = true <-> a < b.
Proof. simpl. xcases; split; auto; intros; try lra; discriminate. Qed.

Lemma XRm_pow_sane : pow_sane XRm.
Proof.
  intros x y Hx Hy. change (xleb (XFin 0) (xpow x y) = true).
  change (xleb (XFin 0) x = true) in Hx. change (xleb (XFin 0) y = true) in Hy.
  destruct x as [| |a|], y as [| |b|]; try discriminate; simpl in Hx, Hy; unfold xpow;
    xcases; try lra; simpl; xcases; auto; try lra.
  pose proof (Rpower_pos a b); lra.
Qed.

Lemma Rle_Rpower_l_weak a a' b : 0 <= b -> 0 < a <= a' -> Rpower a b <= Rpower a' b.
Proof. intros. apply Rle_Rpower_l; lra. Qed.

Lemma Rpower_ge_1 a b : 1 <= a -> 0 <= b -> 1 <= Rpower a b.
Proof. intros. rewrite <- (Rpower_O 1) by lra. rewrite (Rpower_O 1) by lra.
  replace 1 with (Rpower 1 b). apply Rle_Rpower_l_weak; lra.
  unfold Rpower. rewrite ln_1, Rmult_0_r, exp_0. auto.
Qed.

Lemma XRm_pow_mono : pow_mono XRm.
Proof.
  intros x x' y Hx Hxx Hy. change (xleb (xpow x y) (xpow x' y) = true).
  change (xleb (XFin 0) x = true) in Hx. change (xleb (XFin 0) y = true) in Hy.
  change (xleb x x' = true) in Hxx.
  destruct x as [| |a|], x' as [| |a'|], y as [| |b|]; try discriminate; simpl in Hx, Hxx, Hy; unfold xpow;
    xcases; try lra; simpl; xcases; auto; try lra;
    try (rewrite !Rabs_pos_eq in * by lra; lra);
    try (pose proof (Rpower_pos a' b); lra).
  assert (Rpower a b <= Rpower a' b) by (apply Rle_Rpower_l_weak; lra). lra.
Qed.
