(** * What a metric of two joined records can be *)
From Coq Require Import Bool.
From Verif Require Import Base Num.

(** [m] lies between [x] and [y] *)
Definition lies_between {O : numops} (x y m : O) : Prop :=
  (n_leb x m = true /\ n_leb m y = true) \/ (n_leb y m = true /\ n_leb m x = true).
