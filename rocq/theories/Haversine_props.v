(** * Properties C37, C38: haversine distance *)
From Coq Require Import Reals Lra.
From Verif Require Import Base Num NumF64 Libm Libm64 Haversine_model Haversine_spec Haversine_proofs.
Local Open Scope R_scope.

Theorem C37_haversine_total_bounded_symmetric : forall lon1 lat1 lon2 lat2 : R, exists d,
  haversine XRm (XFin lon1 : XR) (XFin lat1 : XR) (XFin lon2 : XR) (XFin lat2 : XR) = (XFin d : XR) /\
  0 <= d <= 6367 * PI /\
  haversine XRm (XFin lon2 : XR) (XFin lat2 : XR) (XFin lon1 : XR) (XFin lat1 : XR) = (XFin d : XR).
Proof. exact haversine_range. Qed.
Print Assumptions C37_haversine_total_bounded_symmetric.

(** a quarter of the equator; the same for a latitude of 450 degrees *)
Example C37_case : haversine XRm (XFin 0 : XR) (XFin 0 : XR) (XFin 90 : XR) (XFin 0 : XR) = (XFin (6367 * (PI / 2)) : XR) /\
  exists d, haversine XRm (XFin 0 : XR) (XFin 450 : XR) (XFin 10 : XR) (XFin 0 : XR) = (XFin d : XR) /\ 0 <= d.
Proof.
  split.
  - rewrite haversine_exact. unfold great_circle, cos_angle, dot3, ux, uy, uz, rad.
    replace (0 * (PI / 180)) with 0 by ring. replace (90 * (PI / 180)) with (PI / 2) by field.
    rewrite cos_0, sin_0, cos_PI2, sin_PI2.
    replace (1 * 1 * (1 * 0) + 1 * 0 * (1 * 1) + 0 * 0) with 0 by ring. rewrite acos_0. reflexivity.
  - destruct (haversine_range 0 450 10 0) as (d & E & R & _). exists d. split; [exact E|lra].
Qed.

Theorem C37_haversine_float_symmetric : forall (L : libm F64) (lon1 lat1 lon2 lat2 : F64), odd_sin L ->
  haversine L lon1 lat1 lon2 lat2 = haversine L lon2 lat2 lon1 lat1.
Proof. exact haversine_float_sym. Qed.
Print Assumptions C37_haversine_float_symmetric.

Theorem C37_sine_law_satisfiable : odd_sin F64cr.
Proof. exact F64cr_odd_sin. Qed.
Print Assumptions C37_sine_law_satisfiable.

Example C37_case_float : haversine F64cr (f_ofZ 10) (f_ofZ 48) (f_ofZ 11) (f_ofZ 47) = haversine F64cr (f_ofZ 11) (f_ofZ 47) (f_ofZ 10) (f_ofZ 48).
Proof. apply (haversine_float_sym F64cr), F64cr_odd_sin. Qed.

Theorem C38_haversine_is_great_circle_metric : forall lon1 lat1 lon2 lat2 lon3 lat3 : R, exists d12 d23 d13,
  haversine XRm (XFin lon1 : XR) (XFin lat1 : XR) (XFin lon2 : XR) (XFin lat2 : XR) = (XFin d12 : XR) /\
  haversine XRm (XFin lon2 : XR) (XFin lat2 : XR) (XFin lon3 : XR) (XFin lat3 : XR) = (XFin d23 : XR) /\
  haversine XRm (XFin lon1 : XR) (XFin lat1 : XR) (XFin lon3 : XR) (XFin lat3 : XR) = (XFin d13 : XR) /\
  d12 = great_circle lon1 lat1 lon2 lat2 /\
  (d12 = 0 <-> same_place lon1 lat1 lon2 lat2) /\ d13 <= d12 + d23.
Proof. exact haversine_metric. Qed.
Print Assumptions C38_haversine_is_great_circle_metric.

(** at the pole the longitude does not matter *)
Example C38_case : haversine XRm (XFin 13 : XR) (XFin 90 : XR) (XFin 77 : XR) (XFin 90 : XR) = (XFin 0 : XR).
Proof.
  rewrite haversine_exact. apply f_equal. apply great_circle_zero. unfold same_place, ux, uy, uz, rad.
  replace (90 * (PI / 180)) with (PI / 2) by field. rewrite cos_PI2. repeat split; ring.
Qed.
