(** * Levels on which the rules of the notebooks agree *)
From Coq Require Import List ZArith Bool Reals.
From Verif Require Import Base Num KR_spec.
Import ListNotations.
Local Open Scope nat_scope.

Section Spec.
Context {O : numops}.
(** every level is missing, the fill value, or in the range *)
Definition plausible (fill : O) (range : O -> Prop) (l : list O) : Prop :=
  forall v, In v l -> missing v \/ n_eqb v fill = true \/ range v.
Definition below (hi v : O) : Prop := n_ltb v hi = true.
Definition above (lo v : O) : Prop := n_ltb lo v = true.
(** no infinite levels *)
Definition no_inf (l : list O) : Prop := forall v, In v l -> n_isinf v = false.
End Spec.

(** all levels from step [i] to [j] that satisfy [P] lie in an interval of length [d] *)
Definition spread (P : nat -> Prop) (l : list XR) (i j : nat) (d : R) : Prop :=
  exists a, forall k v, i <= k <= j -> P k -> get n_nan l k = XFin v -> (a <= v <= a + d)%R.
(** opposite numbers up to [d] *)
Definition opposite_within (d : R) (a b : XR) : Prop := exists p q, a = XFin p /\ b = XFin q /\ (Rabs (p + q) <= d)%R.
