(** * When a sum in binary64 is exact *)
From Coq Require Import List ZArith Bool Reals.
From Flocq Require Import Core IEEE754.BinarySingleNaN.
From Verif Require Import Base Num NumF64 RealStat.
Import ListNotations.

(** [v] is a multiple of [2^e]: a whole number of tips of a rain gauge whose tip is a power of two *)
Definition multiple (e : Z) (v : F64) : Prop := exists z : Z, f_val v = XFin (IZR z * bpow radix2 e).
(** all values are multiples of [2^e], and their absolute values sum to at most [2^53] such units *)
Definition countable (e : Z) (l : list F64) : Prop :=
  (-1074 <= e <= 900)%Z /\ (forall v, In v l -> multiple e v) /\ (rsum (map (fun v => Rabs (B2R v)) l) <= IZR (2 ^ 53) * bpow radix2 e)%R.
(** a way of summing binary64 numbers (left to right, pairwise, compensated, ...) that is exact for such values *)
Definition exact_sum (method : list F64 -> F64) : Prop :=
  forall e l, countable e l -> f_val (method l) = XFin (rsum (map B2R l)).
