(** * Gaps, measured samples and complete windows *)
From Coq Require Import List ZArith Bool.
From Verif Require Import Base Num.
Import ListNotations.
Local Open Scope nat_scope.

Section Spec.
Context {O : numops}.
Notation at_ l i := (get (n_nan : O) l i).
(** both levels were measured at [t]: neither a fill value nor missing *)
Definition measured (fill_t fill_r : O) (tsl rsl : list O) (t : nat) : Prop :=
  n_isnan (at_ tsl t) = false /\ n_isnan (at_ rsl t) = false /\
  n_eqb (at_ tsl t) fill_t = false /\ n_eqb (at_ rsl t) fill_r = false.

(** [t] lies in a gap of [P] between [i] and [j] *)
Definition in_gap (P : nat -> Prop) (n i t j : nat) : Prop :=
  i < t < j /\ j < n /\ P i /\ P j /\ forall k, i < k < j -> ~ P k.

(** the gap is not longer than [max_gap] *)
Definition short (x : list O) (max_gap : O) (i j : nat) : Prop := n_leb (n_sub (at_ x j) (at_ x i)) max_gap = true.

(** measured, or filled because the gap is short *)
Definition bridged (fill_t fill_r : O) (x : list O) (max_gap : O) (tsl rsl : list O) (t : nat) : Prop :=
  measured fill_t fill_r tsl rsl t \/
  exists i j, in_gap (measured fill_t fill_r tsl rsl) (length tsl) i t j /\ short x max_gap i j.

(** the window of [w] steps around [t] *)
Definition in_window (w t k : nat) : Prop := t <= k + w / 2 /\ k + w / 2 < t + w.
End Spec.
