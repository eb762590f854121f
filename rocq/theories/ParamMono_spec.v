(** * Vocabulary for the effect of thresholds and correction parameters *)
From Coq Require Import List Bool Reals.
From Verif Require Import Base Num.
Import ListNotations.

(** two wet flags: both missing, or 0 and 1 with a wet step staying wet *)
Definition stays_wet {O : numops} (x y : O) : Prop :=
  (x = n_nan /\ y = n_nan) \/ (x = n_ofZ 0 /\ (y = n_ofZ 0 \/ y = n_ofZ 1)) \/ (x = n_ofZ 1 /\ y = n_ofZ 1).

(** no infinite values *)
Definition finite_or_missing (x : XR) : Prop := x = XNaN \/ exists r, x = XFin r.
(** both missing, or numbers in this order *)
Definition not_above (x y : XR) : Prop := (x = XNaN /\ y = XNaN) \/ exists r s, x = XFin r /\ y = XFin s /\ (r <= s)%R.
