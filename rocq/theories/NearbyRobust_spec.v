(** * Vocabulary for wrong and inaccurate levels in the nearby-link approach *)
From Coq Require Import List Bool Reals.
From Verif Require Import Base Num MeasErr_spec Pastorek_spec NearbyRain_spec.
Import ListNotations.

(** not between [lo] and [hi] *)
Definition outside {O : numops} (lo hi v : O) : bool := negb (n_leb lo v && n_leb v hi).

(** two records of the same length that are missing at the same steps and
    differ by at most [q] elsewhere *)
Definition close_records (q : R) (l l' : list XR) : Prop :=
  length l' = length l /\ forall k, near q (get n_nan l k) (get n_nan l' k).

(** the rain rate for the corrected levels [x] (minimum) and [m] (maximum) with
    wet antenna attenuation [w] *)
Definition mixed_rate (alpha a b len pref x m w : R) : R :=
  (alpha * rain_of a b len (rain_attenuation pref x w) + (1 - alpha) * rain_of a b len (rain_attenuation pref m w))%R.
