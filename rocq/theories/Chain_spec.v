(** * Vocabulary for the processing chain *)
From Coq Require Import List ZArith Bool String.
From Verif Require Import Base Num Libm KR_model KR_spec Chain_model.
Import ListNotations.

Section Spec.
Context {O : numops}.
(** coefficients given as numbers for which the power law is defined *)
Definition plain_coefficients (k : kr_args O) : Prop :=
  exists a b, kr_f k = None /\ kr_pol k = None /\ kr_a k = Some (CScalar a) /\ kr_b k = Some (CScalar b) /\
    positive (n_mul a (kr_len k)) /\ finite (n_mul a (kr_len k)) /\ positive b /\ positive (n_div (n_ofZ 1) b).

(** the same link described by one frequency and polarisation, whose
    coefficients are those of [k] *)
Definition frequency_of (cubic : list O -> list O -> O -> O) (k : kr_args O) (f : O) (pol : string) : Prop :=
  exists a b, kr_a k = Some (CScalar a) /\ kr_b k = Some (CScalar b) /\
    a_b cubic [f] (PolArr [pol]) (kr_approx k) = Ok ([a], [b]).
Definition by_frequency (k : kr_args O) (f : O) (pol : string) : kr_args O :=
  mk_kr_args (kr_len k) (Some [f]) (Some (PolStr pol)) None None (kr_approx k) (kr_min k).

(** the power of zero to a positive exponent is zero *)
Definition pow_zero (L : libm O) : Prop := forall x y : O,
  n_eqb x (n_ofZ 0) = true -> positive y -> n_eqb (m_pow L x y) (n_ofZ 0) = true.

(** a number is at least 0 or missing *)
Definition not_negative (x : O) : Prop := n_ltb x (n_ofZ 0) = false.

Definition same_until {A} (d : A) (k : nat) (l l' : list A) : Prop := forall j, j <= k -> get d l j = get d l' j.
End Spec.
