(** * Sums of float64 numbers in any order *)
From Coq Require Import List ZArith Reals Permutation.
From Verif Require Import Base Num NumF64 NumList RealStat HaversineFloat_spec.
Import ListNotations.

(** the numbers of an array *)
Definition are_nums (l : list F64) (r : list R) : Prop := Forall2 is_num l r.
(** [x] is the result of adding the elements of [l] by [k] additions, in any
    order and grouping (left to right, pairwise, unrolled, with an initial zero) *)
Inductive summed : nat -> list F64 -> F64 -> Prop :=
| summed_zero : summed 0 [] zero
| summed_one x : summed 0 [x] x
| summed_add j k l l' x y : summed j l x -> summed k l' y -> summed (j + k + 1) (l ++ l') (n_add x y)
| summed_perm k l l' x : Permutation l l' -> summed k l x -> summed k l' x.
(** a way of summing with at most as many additions as there are elements *)
Definition sums (f : list F64 -> F64) : Prop := forall l, exists k, k <= length l /\ summed k l (f l).
