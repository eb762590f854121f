(** * Vocabulary: grids that cover their stations up to rounding *)
From Coq Require Import List ZArith Reals.
From Verif Require Import Base Grid_spec.
Import ListNotations.
Local Open Scope R_scope.

(** as [Grid_spec.covers], up to a few times [e] for each coordinate *)
Definition nearly_covers (l : list R) (r e : R) (c : list R) : Prop :=
  exists lo hi, least l lo /\ greatest l hi /\ (2 <= length c)%nat /\
  (forall i, (i < length c)%nat -> Rabs (get 0 c i - (lo - r + INR i * r)) <= (3 * INR i + 7) * e) /\
  hi - (3 * INR (length c) + 14) * e <= get 0 c (length c - 1) < hi + r + (3 * INR (length c) + 14) * e.
