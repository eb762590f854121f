(** * What is assumed of powers of ten, and the size of rounding errors *)
From Coq Require Import ZArith Bool Reals.
From Verif Require Import Base Num NumF64 Libm HaversineFloat_spec.
Local Open Scope R_scope.

(** powers of ten never decrease in the exponent, and those up to 10^3 are
    between 0 and 1024 *)
Definition ten_sane (L : libm F64) : Prop :=
  (forall x y : F64, n_leb x y = true -> n_leb y (n_ofZ 3) = true -> n_leb (n_ofZ (-10)) x = true -> n_leb (m_pow L (n_ofZ 10) x) (m_pow L (n_ofZ 10) y) = true) /\
  (forall x : F64, n_leb (n_ofZ (-10)) x = true -> n_leb x (n_ofZ 3) = true ->
     n_leb (n_ofZ 0) (m_pow L (n_ofZ 10) x) = true /\ n_leb (m_pow L (n_ofZ 10) x) (n_ofZ 1024) = true).

(** a rounding error in dB: 2^-39, less than 2e-12 *)
Definition tiny : R := / 2 ^ 39.
