(** * Properties C37, C38 in binary64: the computed distance *)
From Coq Require Import Reals Lra Lia ZArith.
From Verif Require Import Base Num NumF64 Libm Libm64 Haversine_model Haversine_spec HaversineFloat_spec HaversineFloat_proofs HaversineFloat_proofs2 HaversineAcc_proofs HaversineAcc_proofs2.
Local Open Scope R_scope.

(** The distance is a number between 0 and half the circumference, up to rounding. *)
Theorem C37_float_range : forall (L : libm F64), trig_laws L -> forall (lon1 lat1 lon2 lat2 : F64) (o1 a1 o2 a2 : R),
  is_num lon1 o1 -> is_num lat1 a1 -> is_num lon2 o2 -> is_num lat2 a2 ->
  Rabs o1 <= 720 -> Rabs o2 <= 720 -> Rabs a1 <= 89 -> Rabs a2 <= 89 -> Rabs (o2 - o1) <= 90 -> Rabs (a2 - a1) <= 60 ->
  exists d, is_num (haversine L lon1 lat1 lon2 lat2) d /\ 0 <= d <= 6367 * PI * (1 + / 2 ^ 50).
Proof. intros L H lon1 lat1 lon2 lat2 o1 a1 o2 a2 ? ? ? ? ? ? ? ? ? ?. apply (haversine_float_range L H lon1 lat1 lon2 lat2 o1 a1 o2 a2); auto. Qed.
Print Assumptions C37_float_range.

Theorem C37_trig_laws_satisfiable : trig_laws F64cr.
Proof. exact F64cr_trig. Qed.
Print Assumptions C37_trig_laws_satisfiable.

(** Without the limits on the differences it is not always a number: between
    two opposite points the sum of squares is rounded above one. *)
Theorem C37_antipodes_are_nan_refuted : exists (lat : F64) (a : R), is_num lat a /\ 0 <= a <= 1 /\
  n_isnan (haversine F64cr (n_ofZ 0) lat (n_ofZ 180) (n_opp lat)) = true.
Proof. exists lat0, l0. split; [exact num_lat0|split; [exact l0_small|exact antipodes_nan]]. Qed.
Print Assumptions C37_antipodes_are_nan_refuted.

(** The distance is within a centimetre of the great circle. *)
Theorem C38_float_is_great_circle : forall (L : libm F64), trig_accurate L -> forall (lon1 lat1 lon2 lat2 : F64) (o1 a1 o2 a2 : R),
  is_num lon1 o1 -> is_num lat1 a1 -> is_num lon2 o2 -> is_num lat2 a2 ->
  Rabs o1 <= 720 -> Rabs o2 <= 720 -> Rabs a1 <= 89 -> Rabs a2 <= 89 -> Rabs (o2 - o1) <= 90 -> Rabs (a2 - a1) <= 60 ->
  exists d, is_num (haversine L lon1 lat1 lon2 lat2) d /\ Rabs (d - great_circle o1 a1 o2 a2) <= / 100000.
Proof. intros L H lon1 lat1 lon2 lat2 o1 a1 o2 a2 ? ? ? ? ? ? ? ? ? ?. apply (haversine_accurate L H lon1 lat1 lon2 lat2 o1 a1 o2 a2); auto. Qed.
Print Assumptions C38_float_is_great_circle.

Theorem C38_accuracy_satisfiable : trig_accurate F64cr.
Proof. exact F64cr_accurate. Qed.
Print Assumptions C38_accuracy_satisfiable.

(** a quarter of the equator in binary64 *)
Example C38_case_float : exists d, is_num (haversine F64cr (n_ofZ 0) (n_ofZ 0) (n_ofZ 90) (n_ofZ 0)) d /\ Rabs (d - 6367 * (PI / 2)) <= / 100000.
Proof.
  destruct (C38_float_is_great_circle F64cr F64cr_accurate (n_ofZ 0) (n_ofZ 0) (n_ofZ 90) (n_ofZ 0) 0 0 90 0) as (d & D & E); try (apply num_ofZ; lia); try (apply Rabs_le; lra).
  exists d. split; [exact D|]. replace (6367 * (PI / 2)) with (great_circle 0 0 90 0); [exact E|].
  unfold great_circle, cos_angle, dot3, ux, uy, uz, rad. replace (0 * (PI / 180)) with 0 by ring. replace (90 * (PI / 180)) with (PI / 2) by field.
  rewrite cos_0, sin_0, cos_PI2, sin_PI2. replace (1 * 1 * (1 * 0) + 1 * 0 * (1 * 1) + 0 * 0) with 0 by ring. rewrite acos_0. reflexivity.
Qed.
Example C37_case_range : exists d, is_num (haversine F64cr (n_ofZ 11) (n_ofZ 48) (n_ofZ (-20)) (n_ofZ 70)) d /\ 0 <= d <= 6367 * PI * (1 + / 2 ^ 50).
Proof. apply (C37_float_range F64cr F64cr_trig _ _ _ _ 11 48 (-20) 70); try (apply num_ofZ; lia); apply Rabs_le; lra. Qed.
