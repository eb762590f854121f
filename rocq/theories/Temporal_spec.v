(** * Which samples belong to which label *)
From Coq Require Import List ZArith String Sorted.
Import ListNotations.
Local Open Scope Z_scope.

Definition increasing (l : list Z) : Prop := StronglySorted Z.lt l.

(** the common period of two sets of instants *)
Definition first_last (l : list Z) (a b : Z) : Prop := In a l /\ In b l /\ forall t, In t l -> a <= t <= b.
Definition common_period (l1 l2 : list Z) (a b : Z) : Prop :=
  exists a1 b1 a2 b2, first_last l1 a1 b1 /\ first_last l2 a2 b2 /\ a = Z.max a1 a2 /\ b = Z.min b1 b2.

(** [n] is the smallest new timestamp at or after [t] (right), or the largest
    at or before it (left), everything inside [a, b] *)
Definition right_label (new : list Z) (a b t n : Z) : Prop :=
  a <= t <= b /\ a <= n <= b /\ In n new /\ t <= n /\ forall m, In m new -> t <= m -> n <= m.
Definition left_label (new : list Z) (a b t n : Z) : Prop :=
  a <= t <= b /\ a <= n <= b /\ In n new /\ n <= t /\ forall m, In m new -> m <= t -> m <= n.
Definition label_of (label : string) (new : list Z) (a b t n : Z) : Prop :=
  (label = "right"%string /\ right_label new a b t n) \/ (label = "left"%string /\ left_label new a b t n).
