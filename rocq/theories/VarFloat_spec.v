(** * What is assumed of a math library for the climatological variogram *)
From Coq Require Import ZArith Reals.
From Flocq Require Import Core.
From Verif Require Import Base Num NumF64 Libm HaversineFloat_spec.
Local Open Scope R_scope.

(** powers of positive numbers between 2^-100 and 2^100 are right to one part in eight *)
Definition pow_rough (L : libm F64) : Prop := forall x y a b, is_num x a -> is_num y b -> 0 < a ->
  bpow radix2 (-100) <= Rpower a b <= bpow radix2 100 ->
  exists p, is_num (m_pow L x y) p /\ Rabs (p - Rpower a b) <= Rpower a b / 8.
(** cosines of numbers are numbers between -1 and 1 *)
Definition cos_range (L : libm F64) : Prop := forall x a, is_num x a -> exists c, is_num (m_cos L x) c /\ -1 <= c <= 1.
