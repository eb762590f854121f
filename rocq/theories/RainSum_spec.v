(** * Vocabulary for rain sums *)
From Coq Require Import List ZArith Bool Reals Sorted Permutation.
From Verif Require Import Base Num NumList RealSpec RealStat.
Import ListNotations.

(** what a sample adds to a sum: a missing one nothing *)
Definition part (x : XR) : R := match x with XFin r => r | _ => 0%R end.
Definition during (times : list Z) (a b : Z) (i : nat) : bool := (a <=? get 0 times i)%Z && (get 0 times i <? b)%Z.
(** the sum of the samples measured from time [a] to before time [b], and their number *)
Definition sum_in (times : list Z) (l : list XR) (a b : Z) : R :=
  rsum (map (fun i => if during times a b i then part (get n_nan l i) else 0%R) (seq 0 (length times))).
Definition measured_in {O : numops} (times : list Z) (l : list O) (a b : Z) : nat :=
  length (filter (fun i => during times a b i && negb (n_isnan (get n_nan l i))) (seq 0 (length times))).
(** the numbers of a series *)
Definition numbers (l : list XR) : list R := map part (filter (fun x : XR => negb (n_isnan x)) l).
(** the sums of the first 1, 2, ... numbers *)
Definition partial_sums (l : list R) : list R := map (fun k => rsum (firstn (S k) l)) (seq 0 (length l)).
(** finite or missing *)
Definition plain_series (l : list XR) : Prop := forall x, In x l -> n_isinf x = false.
(** the number of missing samples *)
Definition missing_count (l : list XR) : nat := length (filter (fun x : XR => n_isnan x) l).
