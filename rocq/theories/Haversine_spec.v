(** * Points on the sphere *)
From Coq Require Import Reals.
From Verif Require Import Num Libm.
Local Open Scope R_scope.

(** unit vector of a point given in degrees *)
Definition rad (d : R) : R := d * (PI / 180).
Definition ux (lon lat : R) : R := cos (rad lat) * cos (rad lon).
Definition uy (lon lat : R) : R := cos (rad lat) * sin (rad lon).
Definition uz (lon lat : R) : R := sin (rad lat).
Definition dot3 (a b c a' b' c' : R) : R := a * a' + b * b' + c * c'.
Definition cos_angle (lon1 lat1 lon2 lat2 : R) : R :=
  dot3 (ux lon1 lat1) (uy lon1 lat1) (uz lon1 lat1) (ux lon2 lat2) (uy lon2 lat2) (uz lon2 lat2).
Definition same_place (lon1 lat1 lon2 lat2 : R) : Prop :=
  ux lon1 lat1 = ux lon2 lat2 /\ uy lon1 lat1 = uy lon2 lat2 /\ uz lon1 lat1 = uz lon2 lat2.

(** great-circle distance on a sphere of radius 6367 km *)
Definition great_circle (lon1 lat1 lon2 lat2 : R) : R := 6367 * acos (cos_angle lon1 lat1 lon2 lat2).

(** what is asked of a sine implementation: odd, up to the sign of a zero result *)
Definition odd_sin {O : numops} (L : libm O) : Prop := forall x : O,
  m_sin L (n_opp x) = n_opp (m_sin L x) \/ (m_sin L (n_opp x) = m_sin L x /\ n_eqb (m_sin L x) (n_ofZ 0) = true).
