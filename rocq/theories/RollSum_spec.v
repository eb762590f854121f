(** * What a rolling sum has to be *)
From Coq Require Import List ZArith Reals.
From Verif Require Import Base Num NumF64 RealStat HaversineFloat_spec.
Import ListNotations.

(** the numbers among the last [w] values of a series up to step [t]: [vals i] is [Some r] where the series has the number [r], [None] where it has NaN *)
Fixpoint present (vals : nat -> option R) (is : list nat) : list R :=
  match is with [] => [] | i :: t => match vals i with Some r => r :: present vals t | None => present vals t end end.
Definition window_numbers (vals : nat -> option R) (w t : nat) : list R := present vals (seq (t + 1 - w) (t + 1 - (t + 1 - w))).
(** the series in exact arithmetic and in binary64 *)
Definition exact_series (l : list XR) (vals : nat -> option R) : Prop :=
  forall i, i < length l -> get XNaN l i = match vals i with Some r => XFin r | None => XNaN end.
Definition float_series (l : list F64) (vals : nat -> option R) : Prop :=
  forall i, i < length l -> f_val (get (n_nan : F64) l i) = match vals i with Some r => XFin r | None => XNaN end.
