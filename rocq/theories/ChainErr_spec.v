(** * The documented chain in exact arithmetic, for comparison with float64 *)
From Coq Require Import List ZArith Reals.
From Verif Require Import Base Num NumF64 RealSpec RealStat Baseline_spec Schleiss_spec HaversineFloat_spec.
Import ListNotations.
Local Open Scope R_scope.

(** the constant baseline [B] of the levels [T]: it follows the level when dry, starts an event with
    the mean of the [n] values before it and keeps that value *)
Definition exact_baseline (T : list R) (wet : list F64) (n : nat) (B : list R) : Prop :=
  length B = length T /\ forall i, (i < length T)%nat ->
  (((i < n)%nat \/ ~ flagged_wet wet i) -> rget B i = rget T i) /\
  ((n <= i)%nat -> flagged_wet wet i -> flagged_wet wet (i - 1) -> rget B i = rget B (i - 1)) /\
  ((n <= i)%nat -> flagged_wet wet i -> ~ flagged_wet wet (i - 1) -> rget B i = rmean (slice (i - n) i B)).

(** the wet antenna attenuation [W] of Schleiss et al.: at most the attenuation and [top], and in wet
    steps at most what is reached by closing the share [q] of the gap to [top] *)
Definition exact_waa (T B : list R) (wet : list F64) (top q : R) (W : list R) : Prop :=
  length W = length T /\ ((0 < length T)%nat -> rget W 0 = 0) /\ forall i, (1 <= i < length T)%nat ->
  (~ flag_is_one wet i -> rget W i = Rmin (rget T i - rget B i) top) /\
  (flag_is_one wet i -> rget W i = Rmin (Rmin (rget T i - rget B i) top) (rget W (i - 1) + q * (top - rget W (i - 1)))).

(** the rain rate that causes the attenuation [y] on a link of length [l] *)
Definition law (a b l y : R) : R := if Rle_dec y 0 then 0 else Rpower (y / (a * l)) (/ b).

(** the rain rate [x] is between [lo] and [hi], or zero because it is below the threshold [m] *)
Definition rain_between (lo hi m : R) (x : F64) : Prop :=
  exists v, is_num x v /\ 0 <= v <= hi /\ (v = 0 \/ lo <= v) /\ (m <= lo -> lo <= v) /\ (hi < m -> v = 0).
