(** * Vocabulary for the memory of the nearby-link chain *)
From Coq Require Import List ZArith Bool String.
From Verif Require Import Base Num NearbyWetdry_model NearbyWetdry_spec NearbyChain_model.
Import ListNotations.
Local Open Scope nat_scope.
Local Notation length := List.length.

Section Spec.
Context {O : numops}.

(** step [t + s] of one record is step [t] of the other, for the first [e]
    steps of the latter *)
Definition same_stretch (s e : nat) (m m' : list (list O)) : Prop :=
  length m = length m' /\ forall i t, i < length m -> t < e -> cell m i (t + s) = cell m' i t.

(** one record is the other without its first [s] steps *)
Definition late_start (s T T' : nat) (m m' : list (list O)) : Prop := T = T' + s /\ same_stretch s T' m m'.

(** steps that a record has to cover before its wet flags, its F scores and its
    rain rates no longer depend on where it starts *)
Definition steps_of_period (p : nearby_par O) : nat := np_timeperiod p * 60 / np_interval p.
Definition warm_wet (p : nearby_par O) : nat := steps_of_period p.
Definition warm_score (p : nearby_par O) : nat := steps_of_period p + np_timeperiod p * 4 - 2.
Definition warm_rain (p : nearby_par O) : nat := Nat.max (steps_of_period p + np_average_dry p - 1) (warm_score p).
End Spec.
