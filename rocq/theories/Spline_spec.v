(** * Not-a-knot cubic splines

    What scipy's interp1d(kind="cubic") (make_interp_spline, k=3, default
    boundary conditions) computes, in exact arithmetic. *)
From Coq Require Import List Reals.
From Verif Require Import RealSpec.
Import ListNotations.
Local Open Scope R_scope.

(** [s] is piecewise cubic with pieces on [x_i, x_{i+1}], passes through the
    points, has continuous first and second derivatives at the inner nodes,
    and a continuous third derivative at the second and last-but-one node. *)
Definition notaknot_spline (xs ys : list R) (s : R -> R) : Prop :=
  exists c1 c2 c3 : nat -> R,
    let n := length xs in
    let h i := rget xs (i + 1) - rget xs i in
    (forall i t, (i + 1 < n)%nat -> rget xs i <= t <= rget xs (i + 1) ->
       s t = rget ys i + c1 i * (t - rget xs i) + c2 i * (t - rget xs i) ^ 2 + c3 i * (t - rget xs i) ^ 3) /\
    (forall i, (i < n)%nat -> s (rget xs i) = rget ys i) /\
    (forall i, (i + 2 < n)%nat ->
       c1 i + 2 * c2 i * h i + 3 * c3 i * h i ^ 2 = c1 (i + 1)%nat /\
       2 * c2 i + 6 * c3 i * h i = 2 * c2 (i + 1)%nat) /\
    c3 0%nat = c3 1%nat /\ c3 (n - 3)%nat = c3 (n - 2)%nat.
