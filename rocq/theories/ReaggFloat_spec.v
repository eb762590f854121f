(** * Sums of rain in binary64: how far they can be from the exact sum *)
From Coq Require Import List ZArith Reals.
From Flocq Require Import Core.
From Verif Require Import Base Num NumF64 RealStat HaversineFloat_spec.
Import ListNotations.
Local Open Scope R_scope.

(** [v] is a number within n * (2^-51 * r + 2^-1072) of [r] *)
Definition nearly (n : nat) (r : R) (v : F64) : Prop := exists s, is_num v s /\ Rabs (s - r) <= INR n * (r / 2 ^ 51 + bpow radix2 (-1072)).
