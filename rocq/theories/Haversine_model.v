(** * Model of /repo/pycomlink/spatial/helper.py *)
From Coq Require Import List ZArith.
From Verif Require Import Base Num NumList Libm.

(** helper.py:17-29 [haversine], one pair of points (arrays: elementwise).
    numpy evaluates [x ** 2] as [x * x] and [x ** 0.5] as [sqrt x]. *)
Definition haversine {O : numops} (L : libm O) (lon1 lat1 lon2 lat2 : O) : O :=
  let lon1 := m_radians L lon1 in
  let lat1 := m_radians L lat1 in
  let lon2 := m_radians L lon2 in
  let lat2 := m_radians L lat2 in
  let dlon := n_sub lon2 lon1 in
  let dlat := n_sub lat2 lat1 in
  let sq (x : O) := n_mul x x in
  let a := n_add (sq (m_sin L (n_div dlat (n_ofZ 2))))
                 (n_mul (n_mul (m_cos L lat1) (m_cos L lat2)) (sq (m_sin L (n_div dlon (n_ofZ 2))))) in
  let c := n_mul (n_ofZ 2) (m_atan2 L (n_sqrt a) (n_sqrt (n_sub one a))) in
  n_mul (n_ofZ 6367) c.
