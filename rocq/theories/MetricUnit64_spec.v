(** * Units of the rain rate in float64 *)
From Coq Require Import Reals ZArith List.
From Flocq Require Import Core IEEE754.BinarySingleNaN.
From Verif Require Import Num NumF64.
Local Open Scope R_scope.

(** zero, or of a size between 2^-47 and 2^100 *)
Definition usual_size (x : F64) : Prop :=
  exists r, f_val x = XFin r /\ (r = 0 \/ bpow radix2 (-47) <= Rabs r <= bpow radix2 100).
(** a rain rate: missing or of usual size *)
Definition usual_rates (l : list F64) : Prop := forall x, In x l -> n_isnan x = true \/ usual_size x.
(** [c] is the power of two [2 ^ j] *)
Definition power_of_two (c : F64) (j : Z) : Prop := f_val c = XFin (bpow radix2 j).
