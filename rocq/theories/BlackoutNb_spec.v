(** * Vocabulary for the plots of the blackout notebook *)
From Coq Require Import List ZArith Bool.
From Verif Require Import Base.
Import ListNotations.
Local Open Scope nat_scope.

Definition hour : Z := (60 * 60 * 1000000000)%Z.
Definition increasing (l : list Z) : Prop := forall i j, i < j < length l -> (get 0%Z l i < get 0%Z l j)%Z.
(** less than an hour after another one *)
Definition soon_after_another (l : list Z) (t : Z) : Prop := exists s, In s l /\ (s < t < s + hour)%Z.
Definition soon_before_another (l : list Z) (t : Z) : Prop := exists s, In s l /\ (t < s < t + hour)%Z.
Definition latest (l : list Z) (t : Z) : Prop := In t l /\ forall s, In s l -> (s <= t)%Z.
