(** * Vocabulary for the algebra of baselines *)
From Coq Require Import List Reals.
From Verif Require Import Base Num.
Import ListNotations.

(** [a x + c y] for numbers, NaN otherwise *)
Definition mixed (a c : R) (x y : XR) : XR :=
  match x, y with
  | XFin r, XFin s => XFin (a * r + c * s)
  | _, _ => XNaN
  end.

(** both numbers and in order, or both missing *)
Definition ordered (x y : XR) : Prop :=
  (x = XNaN /\ y = XNaN) \/ exists r s, x = XFin r /\ y = XFin s /\ (r <= s)%R.
