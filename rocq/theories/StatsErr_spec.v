(** * Vocabulary for the float64 errors of the rain metrics *)
From Coq Require Import List ZArith Reals.
From Verif Require Import Base Num NumF64 NumList RealStat Stats_model Stats_spec HaversineFloat_spec FloatErr_spec.
Import ListNotations.

(** the valid pairs of two arrays are the pairs of numbers [qs] *)
Definition float_pairs (reference predicted : list F64) (qs : list (R * R)) : Prop :=
  Forall2 (fun e q => is_num (fst e) (fst q) /\ is_num (snd e) (snd q)) (valid_pairs reference predicted) qs.
(** [m] is the mean of [l], the sum taken in any order *)
Definition mean_of (l : list F64) (m : F64) : Prop := exists k s, k <= length l /\ summed k l s /\ m = n_div s (n_ofnat (length l)).
(** a relative error of [c] units in the last place for each of [n] elements, and an absolute one of [a] *)
Definition within (c a : R) (n : nat) (exact scale v : R) : Prop := (Rabs (v - exact) <= c * INR n / 2 ^ 53 * scale + a)%R.
