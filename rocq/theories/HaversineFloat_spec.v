(** * Laws of a float64 math library used for the haversine distance *)
From Coq Require Import Reals ZArith Bool.
From Verif Require Import Base Num NumF64 Libm.
Local Open Scope R_scope.

(** [x] is the number [r] *)
Definition is_num (x : F64) (r : R) : Prop := f_val x = XFin r.
Record trig_laws (L : libm F64) : Prop := {
  (** radians are right up to 2^-40 for angles up to 720 degrees *)
  tl_radians : forall d r, is_num d r -> Rabs r <= 720 -> exists v, is_num (m_radians L d) v /\ Rabs (v - r * (PI / 180)) <= / 2 ^ 40;
  (** the sine is never larger than its argument *)
  tl_sin : forall x r, is_num x r -> exists v, is_num (m_sin L x) v /\ Rabs v <= Rabs r;
  (** the cosine is in [0,1] up to a right angle *)
  tl_cos : forall x r, is_num x r -> Rabs r <= PI / 2 -> exists v, is_num (m_cos L x) v /\ 0 <= v <= 1;
  (** the angle in the first quadrant *)
  tl_atan2 : forall y x a b, is_num y a -> is_num x b -> 0 <= a -> 0 <= b -> exists v, is_num (m_atan2 L y x) v /\ 0 <= v <= PI / 2 * (1 + / 2 ^ 53)
}.

(** an accurate library: errors of a few units in the last place *)
Record trig_accurate (L : libm F64) : Prop := {
  ta_radians : forall d r, is_num d r -> Rabs r <= 720 -> exists v, is_num (m_radians L d) v /\ Rabs (v - r * (PI / 180)) <= / 2 ^ 48;
  ta_sin : forall x r, is_num x r -> exists v, is_num (m_sin L x) v /\ Rabs (v - sin r) <= / 2 ^ 52;
  ta_cos : forall x r, is_num x r -> exists v, is_num (m_cos L x) v /\ Rabs (v - cos r) <= / 2 ^ 52;
  ta_atan2 : forall y x a b, is_num y a -> is_num x b -> 0 <= a -> 0 <= b -> exists v, is_num (m_atan2 L y x) v /\ Rabs (v - ratan2 a b) <= / 2 ^ 50
}.
