(** * Blackout gaps, stated without the code *)
From Coq Require Import List ZArith Bool.
From Verif Require Import Base Num.
Import ListNotations.

Section Spec.
Context {O : numops}.
Definition is_missing (rsl : list O) (i : nat) : Prop := n_isnan (get n_nan rsl i) = true.
Definition is_low (rsl : list O) (thr : O) (i : nat) : Prop := n_ltb (get n_nan rsl i) thr = true.

(** neighbours on the circle: the last sample is followed by the first *)
Definition cyc_next (n i : nat) : nat := if Nat.eqb (i + 1) n then 0 else i + 1.
Definition cyc_prev (n i : nat) : nat := match i with 0 => n - 1 | S j => j end.

(** [i] lies in a stretch of missing samples that directly follows sample [p]. *)
Definition gap_after (rsl : list O) (p i : nat) : Prop :=
  p < i < length rsl /\ forall j, p < j <= i -> is_missing rsl j.
(** [i] lies in a stretch of missing samples that directly precedes sample [q]. *)
Definition gap_before (rsl : list O) (i q : nat) : Prop :=
  i < q < length rsl /\ forall j, i <= j < q -> is_missing rsl j.
End Spec.
