(** * float64 math libraries

    [F64cr]: the correctly rounded library (every function is the exact one
    followed by rounding); it shows that the hypotheses float64 theorems make
    about the library can be met.  [F64demo]: a computable stand-in for
    examples, with the right value of pow for the exponents 0, 1/2, 1 and 2. *)
From Coq Require Import Reals Lra ZArith Bool Lia.
From Flocq Require Import Core IEEE754.BinarySingleNaN.
From Verif Require Import Base Num NumF64 NumList Libm.
Local Open Scope R_scope.
Local Arguments bpow : simpl never.

Definition f_of_xr (v : xr) : f64 :=
  match v with
  | XNaN => B754_nan
  | XPInf => B754_infinity false
  | XNInf => B754_infinity true
  | XFin r =>
    if Rlt_bool (Rabs (rnd64 r)) (bpow radix2 1024)
    then binary_normalize 53 1024 _ _ mode_NE (Ztrunc (scaled_mantissa radix2 fexp64 (rnd64 r)))
           (cexp radix2 fexp64 (rnd64 r)) false
    else B754_infinity (Rlt_bool r 0)
  end.

Lemma f_of_xr_val v : f_val (f_of_xr v) = f_rnd v.
Proof.
  destruct v as [| |r|]; auto. unfold f_of_xr, f_rnd.
  destruct (Rlt_bool_spec (Rabs (rnd64 r)) (bpow radix2 1024)) as [H|H].
  - assert (G : generic_format radix2 fexp64 (rnd64 r)) by (apply generic_format_round; apply _).
    pose proof (binary_normalize_correct 53 1024 _ _ mode_NE (Ztrunc (scaled_mantissa radix2 fexp64 (rnd64 r)))
                  (cexp radix2 fexp64 (rnd64 r)) false) as B. cbv zeta in B.
    unfold generic_format in G. rewrite <- G in B. rewrite round_NE_fold in B.
    assert (E : rnd64 (rnd64 r) = rnd64 r) by (apply round_generic; try apply _; apply generic_format_round; apply _).
    rewrite E in B. rewrite Rlt_bool_true in B by auto. destruct B as (B1 & B2 & _).
    rewrite f_val_finite by auto. rewrite B1. reflexivity.
  - simpl. destruct (Rlt_bool r 0); reflexivity.
Qed.

Definition cr1 (f : xr -> xr) (x : F64) : F64 := f_of_xr (f (f_val x)).
Definition F64cr : libm F64 :=
  mk_libm F64 (fun x y => f_of_xr (xpow (f_val x) (f_val y))) (cr1 xexp) (cr1 xlog) (cr1 xsin) (cr1 xcos)
    (fun x y => f_of_xr (xatan2 (f_val x) (f_val y))) (cr1 xradians).

Lemma F64_leb0 (x : F64) : n_leb (n_ofZ 0) x = xleb (XFin 0) (f_val x).
Proof. rewrite (val_leb _ F64sem). rewrite (val_0 F64sem). reflexivity. Qed.

Lemma F64cr_pow_sane : pow_sane F64cr.
Proof.
  intros x y Hx Hy. rewrite F64_leb0 in *. simpl m_pow. rewrite f_of_xr_val.
  replace (XFin 0) with (f_rnd (XFin 0)).
  - apply f_rnd_mono. apply (XRm_pow_sane (f_val x) (f_val y)); auto.
  - rewrite <- (val_0 F64sem). apply f_rnd_val.
Qed.

Lemma F64cr_pow_mono : pow_mono F64cr.
Proof.
  intros x x' y Hx Hxx Hy. rewrite F64_leb0 in *.
  change (Bleb x x' = true) in Hxx. rewrite f_val_leb in Hxx.
  change (Bleb (m_pow F64cr x y) (m_pow F64cr x' y) = true). rewrite f_val_leb.
  simpl m_pow. rewrite !f_of_xr_val.
  apply f_rnd_mono. apply (XRm_pow_mono (f_val x) (f_val x') (f_val y)); auto.
Qed.

Definition f_half : F64 := n_div (n_ofZ 1) (n_ofZ 2).
Definition demo_pow (x y : F64) : F64 :=
  if n_eqb y (n_ofZ 1) then x
  else if n_eqb y (n_ofZ 2) then n_mul x x
  else if n_eqb y f_half then n_sqrt x
  else n_ofZ 1.
Definition F64demo : libm F64 :=
  mk_libm F64 demo_pow (fun x => x) (fun x => x) (fun x => x) (fun x => x) (fun x _ => x) (fun x => x).
