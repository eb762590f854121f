(** * Maps in binary64 and in exact arithmetic: where they can be compared *)
From Coq Require Import List ZArith Reals.
From Flocq Require Import Core IEEE754.BinarySingleNaN.
From Verif Require Import Base Num NumF64 Idw_spec IdwSymFloat_spec.
Import ListNotations.
Local Open Scope R_scope.

(** the place with the same coordinates in exact arithmetic *)
Definition rpt_of (a : place) : rpt := (B2R (fst a), B2R (snd a)).
Definition finite_place (a : place) : Prop := number (fst a) /\ number (snd a).

(** Seen from [q] every station is at [q] or between 2^-30 and 2^40 away, two
    distances differ by more than 2^-40 of their size, and no station is that close
    to the edge of the search radius. *)
Record well_apart (q : rpt) (X : list rpt) (ub : option R) : Prop := {
  wa_range : forall x, In x X -> rdist q x = 0 \/ / 2 ^ 30 <= rdist q x <= 2 ^ 40;
  wa_distinct : forall i j, (i < length X)%nat -> (j < length X)%nat -> i <> j -> / 2 ^ 40 * dist_to X q j < Rabs (dist_to X q i - dist_to X q j);
  wa_edge : forall u, ub = Some u -> / 2 ^ 30 <= u <= 2 ^ 40 /\ forall x, In x X -> / 2 ^ 40 * u < Rabs (rdist q x - u) }.
