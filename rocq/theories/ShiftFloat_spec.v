(** * A constant offset of quantised levels in binary64 *)
From Coq Require Import List ZArith Bool Reals.
From Flocq Require Import Core IEEE754.BinarySingleNaN.
From Verif Require Import Base Num NumF64.
Import ListNotations.

(** every value [x] replaced by [x + c] *)
Definition moved (c : F64) (l : list F64) : list F64 := map (fun x : F64 => n_add x c) l.
Definition moved_each (cs : list F64) (m : list (list F64)) : list (list F64) := map2 moved cs m.
(** a multiple of [2^-q], at most [2^48] units, and not the negative zero: with q = 0
    whole dB, with q = 1 halves, ... *)
Definition whole_units (q : Z) (x : F64) : Prop :=
  exists k : Z, (Z.abs k <= 2 ^ 48)%Z /\ f_val x = XFin (IZR k * bpow radix2 (- q)) /\ x <> B754_zero true.
Definition quantised (q : Z) (l : list F64) : Prop := forall x, In x l -> n_isnan x = true \/ whole_units q x.
Definition not_minus_zero (l : list F64) : Prop := forall x : F64, In x l -> x <> B754_zero true.
