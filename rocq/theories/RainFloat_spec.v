(** * Accuracy of a float64 power function, used for the retrieved rain rate *)
From Coq Require Import Reals ZArith Bool.
From Verif Require Import Base Num NumF64 Libm HaversineFloat_spec.
Local Open Scope R_scope.

(** [pow] has relative error at most [e] unless the result is huge or tiny, and
    zero to a positive power is zero *)
Record pow_accurate (L : libm F64) (e : R) : Prop := {
  pa_zero : forall x y c, is_num x 0 -> is_num y c -> 0 < c -> is_num (m_pow L x y) 0;
  pa_pos : forall x y a c, is_num x a -> is_num y c -> 0 < a -> / 2 ^ 300 <= Rpower a c <= 2 ^ 300 ->
    exists v, is_num (m_pow L x y) v /\ Rabs (v - Rpower a c) <= e * Rpower a c
}.
(** the attenuation [x] is that of rain rate [r], up to a relative error [d] *)
Definition caused_by (d a b l r : R) (x : F64) : Prop :=
  exists y, is_num x y /\ (r = 0 /\ y = 0 \/ / 2 ^ 20 <= r <= 2 ^ 20 /\ Rabs (y - a * Rpower r b * l) <= d * (a * Rpower r b * l)).
(** the rain rate [x] is [r] up to [err], or zero because it is below the threshold [m] *)
Definition retrieved (err m r : R) (x : F64) : Prop :=
  exists y, is_num x y /\ (y = 0 \/ Rabs (y - r) <= err) /\ (m <= r - err -> Rabs (y - r) <= err) /\ (r + err < m -> y = 0).
