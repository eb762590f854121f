(** * What is assumed of a math library for the Pastorek wet antenna attenuation *)
From Coq Require Import ZArith Bool.
From Verif Require Import Base Num Libm.

(** [exp] never decreases and is between 0 and 1 for arguments up to 0 *)
Definition exp_sane {O : numops} (L : libm O) : Prop :=
  (forall x y : O, n_leb x y = true -> n_leb (m_exp L x) (m_exp L y) = true) /\
  (forall x : O, n_leb x (n_ofZ 0) = true -> n_leb (n_ofZ 0) (m_exp L x) = true /\ n_leb (m_exp L x) (n_ofZ 1) = true).
