(** * Shapes of what the linear algebra and the neighbour search return *)
From Coq Require Import List.
From Verif Require Import Base Num NumList.
Import ListNotations.

(** an inverse has as many rows as the matrix, a solution as many entries as the right-hand side *)
Definition inv_keeps_size {O : numops} (inv : list (list O) -> res (list (list O))) : Prop := forall A B, inv A = Ok B -> length B = length A.
Definition solve_keeps_size {O : numops} (solve : list (list O) -> list O -> res (list O)) : Prop := forall A b w, solve A b = Ok w -> length w = length b.
(** at most [k] neighbours *)
Definition query_at_most {O : numops} (query : list (O * O) -> O * O -> nat -> O -> option O -> list (O * nat)) : Prop :=
  forall pts p k eps d, length (query pts p k eps d) <= k.
(** the neighbours of a place among the stations *)
Definition neighbours {O : numops} (query : list (O * O) -> O * O -> nat -> O -> option O -> list (O * nat)) (x y : list O) (k : nat) (p q : O) : list nat :=
  map snd (query (combine x y) (p, q) k zero None).
