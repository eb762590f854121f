(** * Levels in steps of a power of two and the numbers an array holds *)
From Coq Require Import List ZArith Bool Reals.
From Flocq Require Import Core.
From Verif Require Import Base Num NumF64.
Import ListNotations.

(** missing, or a multiple of 2^-q dB with at most [2^b] steps: whole dB for q = 0,
    halves for q = 1, ... *)
Definition in_steps (q b : Z) (x : F64) : Prop :=
  n_isnan x = true \/ exists z : Z, (Z.abs z <= 2 ^ b)%Z /\ f_val x = XFin (IZR z * bpow radix2 (- q)).
Definition all_in_steps (q b : Z) (l : list F64) : Prop := forall x, In x l -> in_steps q b x.

(** the real numbers (and NaN) an array stands for; an error stays the error *)
Definition numbers (l : list F64) : list XR := map (A:=F64) (B:=XR) f_val l.
Definition res_numbers (r : res (list F64)) : res (list XR) := match r with Ok l => Ok (numbers l) | Err e => Err e end.
(** the float [c] added to every value *)
Definition plus_each (c : F64) (l : list F64) : list F64 := map (fun x => n_add x c) l.
