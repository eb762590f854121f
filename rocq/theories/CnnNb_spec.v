(** * What the CNN notebooks are for, stated without the code *)
From Coq Require Import List ZArith Bool String.
From Verif Require Import Base Num NumList Median.
Import ListNotations.
Local Open Scope nat_scope.
Local Notation length := List.length.

Section Spec.
Context {O : numops}.
(** series of length [T] for each of [C] channels of each link *)
Definition rect {A} (C : nat) (size : A -> Prop) (n : nat) (d : list (list A)) : Prop :=
  length d = n /\ forall chs, In chs d -> length chs = C /\ forall s, In s chs -> size s.
Definition series (T : nat) (l : list O) : Prop := length l = T.
Definition levels (T : nat) (c : list O * list O) : Prop := length (fst c) = T /\ length (snd c) = T.
(** median of the samples that are there *)
Definition normal_level (l : list O) (m : O) : Prop :=
  exists v, (forall y, In y v -> n_isnan y = false) /\ v = filter (fun y => negb (n_isnan y)) l /\ is_median v m.
(** the [w] samples from [s] of all channels of one link, relative to the
    channel's normal level *)
Definition relative_window (chs : list (list O)) (s w : nat) (x : list (list O)) : Prop :=
  length x = length chs /\ forall c, c < length chs -> length (get [] x c) = w /\
    exists m, normal_level (get [] chs c) m /\ forall k, k < w -> nget (get [] x c) k = n_sub (nget (get [] chs c) (s + k)) m.
(** a network whose output is NaN as soon as one input is *)
Definition spreads_nan (f : list (list O) -> O) : Prop :=
  forall x c k, c < length x -> k < length (get [] x c) -> n_isnan (nget (get [] x c) k) = true -> n_isnan (f x) = true.
Definition wet_at (m : list (list bool)) (t i : nat) : Prop := get false (get [] m t) i = true.
End Spec.

Section Tf.
Context {O : numops}.
(** both channels present and finite in the three hours up to [t] *)
Definition full (chs : list (list O)) (t : nat) : Prop :=
  179 <= t /\ forall c k, c < 2 -> t - 179 <= k <= t -> n_isnan (nget (get [] chs c) k) = false /\ n_isinf (nget (get [] chs c) k) = false.
End Tf.

(** ** a constant offset per link and channel *)
From Coq Require Import Reals.
From Verif Require Import Shift_spec.
Definition offset_of (c : nat -> nat -> R) (tl tl' : list (list (list XR))) : Prop :=
  length tl' = length tl /\ forall i, i < length tl -> length (get [] tl' i) = length (get [] tl i) /\
    forall k, k < length (get [] tl i) -> get [] (get [] tl' i) k = off (c i k) (get [] (get [] tl i) k).
