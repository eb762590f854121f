(** * Vocabulary for the look-up of wet antenna attenuation *)
From Coq Require Import List Reals.
From Verif Require Import Base Num RealSpec.
Local Open Scope R_scope.

(** a search that returns an interval of the table that contains the point;
    on a table that is not sorted there may be several *)
Definition bracketing (search : list XR -> XR -> nat) : Prop :=
  forall (X : list R) (x : R), (1 <= length X)%nat -> rget X 0 <= x <= rget X (length X - 1) ->
  let j := search (ofR X) (XFin x : XR) in
  (j < length X)%nat /\ rget X j <= x /\ ((j + 1 < length X)%nat -> x < rget X (j + 1)).

(** (x, y) lies on the polygon through the points (X i, Y i), i < k + 1 *)
Definition on_polygon (X Y : nat -> R) (k : nat) (x y : R) : Prop :=
  exists j t, (j < k)%nat /\ 0 <= t <= 1 /\
    x = (1 - t) * X j + t * X (j + 1)%nat /\ y = (1 - t) * Y j + t * Y (j + 1)%nat.
