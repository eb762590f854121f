(** * Vocabulary for rain sums in binary64 *)
From Coq Require Import List ZArith Bool Reals.
From Verif Require Import Base Num NumF64 RealStat HaversineFloat_spec NearbyNb_model RainSum_spec.
Import ListNotations.

(** a rain rate: missing, or a number that is not negative *)
Definition plain_rate (v : F64) : Prop := n_isnan v = true \/ exists r, is_num v r /\ (0 <= r)%R.
(** the same series in exact arithmetic *)
Definition exactly (l : list F64) : list XR := map (fun v : F64 => f_val v : XR) l.
(** [resample(time=w)] followed by any way [f] of adding the measured samples *)
Definition sums_by (f : list F64 -> F64) (w : Z) (times : list Z) (l : list F64) : list F64 :=
  resample (fun b => f (filter (fun v : F64 => negb (n_isnan v)) b)) w times l.
(** how many samples were measured *)
Definition measured (l : list F64) : nat := length (filter (fun v : F64 => negb (n_isnan v)) l).
(** not too many, not too large *)
Definition modest (l : list F64) : Prop := (INR (length l) <= 2 ^ 18)%R /\ (rsum (map part (exactly l)) <= 2 ^ 899)%R.
