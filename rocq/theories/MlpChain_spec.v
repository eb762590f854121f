(** * What the MLP classification needs, stated without the code *)
From Coq Require Import List ZArith Bool String.
From Verif Require Import Base Num NumList Mlp_spec.
Import ListNotations.
Local Open Scope nat_scope.
Local Notation length := List.length.

Section Spec.
Context {O : numops}.
(** steps [a] to [b] exist and are measured *)
Definition measured (x : list O) (a b : nat) : Prop := b < length x /\ forall i, a <= i <= b -> n_isnan (nget x i) = false.
(** at least two hours of data within six hours around steps [a] to [b] *)
Definition enough_around (x : list O) (a b : nat) : Prop := forall s, a <= s <= b -> 120 <= length (around x s).
(** a model that gives two numbers for every window without NaN *)
Definition total_model (predict : list O -> res (O * O)) : Prop :=
  forall w, length w = 80 -> existsb n_isnan w = false -> exists p, predict w = Ok p.
End Spec.
