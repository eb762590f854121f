(** * The share of a link's path in each pixel, and what is reported for a link

    [plg.spatial.calc_intersect_weights] (validator.py:48-55) is an oracle: a
    matrix with, for each pixel, the share of the straight path from
    [(xa, ya)] to [(xb, yb)] that lies in the pixel.  Pixels are closed
    rectangles between ascending edges [ex] (columns) and [ey] (rows). *)
From Coq Require Import List ZArith Bool Reals.
From Verif Require Import Base Num RealSpec SpecGram_proofs5 Validator_model Validator_spec.
Import ListNotations.
Local Open Scope R_scope.

(** coordinate of the path after the fraction [t] *)
Definition along (a b t : R) : R := a + t * (b - a).
(** [s] is the share of the path on which [inside] holds *)
Definition share (inside : R -> Prop) (s : R) : Prop :=
  (exists a b, 0 <= a <= b /\ b <= 1 /\ s = b - a /\ forall t, 0 <= t <= 1 -> (inside t <-> a <= t <= b)) \/
  (s = 0 /\ forall t, 0 <= t <= 1 -> ~ inside t).

Definition ascending_edges (e : list R) : Prop := (2 <= length e)%nat /\ forall i, (i + 1 < length e)%nat -> rget e i < rget e (i + 1).
Definition pixels (e : list R) : nat := (length e - 1)%nat.

Definition in_pixel (ex ey : list R) (xa ya xb yb : R) (i j : nat) (t : R) : Prop :=
  rget ex j <= along xa xb t <= rget ex (j + 1) /\ rget ey i <= along ya yb t <= rget ey (i + 1).
Definition in_grid (ex ey : list R) (xa ya xb yb : R) (t : R) : Prop :=
  rget ex 0 <= along xa xb t <= rget ex (pixels ex) /\ rget ey 0 <= along ya yb t <= rget ey (pixels ey).

Definition path_weights (ex ey : list R) (xa ya xb yb : R) (w : list (list XR)) : Prop :=
  mat (pixels ey) (pixels ex) w /\
  forall i j, (i < pixels ey)%nat -> (j < pixels ex)%nat -> exists s, at2 w i j = XFin s /\ share (in_pixel ex ey xa ya xb yb i j) s.

(** the path runs along an edge between pixels *)
Definition on_inner_edge (e : list R) (a b : R) : Prop := a = b /\ exists j, (0 < j < pixels e)%nat /\ rget e j = a.

(** radar images: rain amounts, [None] where there is no value *)
Definition images (ey ex : list R) (times : list Z) (values : list (list (list XR))) (field : nat -> nat -> nat -> option R) : Prop :=
  length values = length times /\ forall k, (k < length times)%nat -> mat (pixels ey) (pixels ex) (get [] values k) /\
  forall i j, (i < pixels ey)%nat -> (j < pixels ex)%nat -> at2 (get [] values k) i j = match field k i j with Some v => XFin v | None => XNaN end.

(** [get_time_series] reports [v k] for image [k], whatever the period of the CML *)
Definition reports (w : list (list XR)) (times : list Z) (values : list (list (list XR))) (v : nat -> R) : Prop :=
  forall t1 i1 i2 t2, get_time_series w (t1 :: i1) (i2 ++ [t2]) times values =
    Ok (map (fun k => (get 0%Z times k, (XFin (v k) : XR))) (filter (fun k => (t1 <? get 0%Z times k) && (get 0%Z times k <? t2))%Z (seq 0 (length times)))).
Definition reports_nothing (w : list (list XR)) (times : list Z) (values : list (list (list XR))) : Prop :=
  forall t1 i1 i2 t2, get_time_series w (t1 :: i1) (i2 ++ [t2]) times values = Err ValueError.
