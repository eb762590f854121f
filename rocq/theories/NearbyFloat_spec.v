(** * Vocabulary for the float64 errors of the nearby rain retrieval *)
From Coq Require Import Reals ZArith.
From Verif Require Import Base Num NumF64 Pastorek_spec NearbyRain_spec HaversineFloat_spec.
Local Open Scope R_scope.

(** a rain attenuation that is zero, or not tiny and that of a moderate rain rate *)
Definition measurable (a b l x : R) : Prop := x = 0 \/ / 2 ^ 10 <= x /\ / 2 ^ 20 <= rain_of a b l x <= 2 ^ 20.
