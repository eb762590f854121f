(** * Aggregating in two steps *)
From Coq Require Import List ZArith String Permutation.
From Verif Require Import Temporal_spec.
Import ListNotations.
Local Open Scope Z_scope.

(** a total of totals is the total, in any order (sum, minimum, maximum) *)
Definition poolable {V} (f : list V -> V) : Prop :=
  (forall l l', Permutation l l' -> f l = f l') /\
  (forall ls : list (list V), ls <> [] -> ~ In [] ls -> f (List.concat ls) = f (map f ls)).

(** the new index begins at or before the data (right), or ends at or after it (left) *)
Definition reaches (label : string) (ts new : list Z) : Prop :=
  exists c, In c new /\ forall t, In t ts -> (label = "right"%string -> c <= t) /\ (label = "left"%string -> t <= c).

(** every label inside the common period has a sample *)
Definition no_gap (label : string) (ts new : list Z) (a b : Z) : Prop :=
  forall n, In n new -> a <= n <= b -> exists t, In t ts /\ label_of label new a b t n.

(** the rows of two aggregations with the method [f]: the same label, and for the samples of the
    bin the method applied to them, and applied to its results for the parts they fall into *)
Definition same_row {V} (f : list V -> V) (df : list (Z * V)) (labelled : Z -> Z -> Prop) (two one : Z * V) : Prop := fst two = fst one /\
  exists (p : Z * V -> bool) (parts : list (list V)), parts <> [] /\ ~ In [] parts /\ (forall t v, In (t, v) df -> p (t, v) = true <-> labelled t (fst one)) /\
  Permutation (map snd (filter p df)) (List.concat parts) /\ snd two = f (map f parts) /\ snd one = f (map snd (filter p df)).
