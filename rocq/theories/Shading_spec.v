(** * Wet periods, stated without the code *)
From Coq Require Import List Bool.
From Verif Require Import Base.
Import ListNotations.
Local Open Scope nat_scope.

(** [a] is the last dry step before a wet period and [b] the first after it *)
Definition wet_period (wet : list bool) (a b : nat) : Prop :=
  a + 1 < b < length wet /\ get true wet a = false /\ get true wet b = false /\ forall i, a < i < b -> get false wet i = true.
Definition dry_ends (wet : list bool) : Prop := wet <> [] -> get true wet 0 = false /\ get true wet (length wet - 1) = false.
