(** * Small numeric helpers on arrays shared by several models *)
From Coq Require Import List ZArith.
From Verif Require Import Base Num.
Import ListNotations.

Section NumList.
Context {O : numops}.

Definition zero : O := n_ofZ 0.
Definition one : O := n_ofZ 1.

(** [np.sum] as numba compiles it: one accumulator, left to right.
    (numpy itself uses pairwise summation; float claims about numpy sums are
    therefore only made in exact arithmetic, where the order is irrelevant.) *)
Definition n_sum (l : list O) : O := fold_left n_add l zero.

(** [np.mean]: sum divided by the number of elements. *)
Definition n_mean (l : list O) : O := n_div (n_sum l) (n_ofZ (Z.of_nat (length l))).

(** Truth value of a float in Python / numba: everything except 0 is true,
    NaN included. *)
Definition n_truthy (x : O) : bool := negb (n_eqb x zero).

(** Python's / numba's [min(a, b)]: keeps [a] unless [b < a]. *)
Definition py_min (a b : O) : O := if n_ltb b a then b else a.

(** element access with NaN as (never reached) default *)
Definition nget (l : list O) (i : nat) : O := get n_nan l i.
End NumList.
