(** * Vocabulary for the nearby-link notebook from raw levels on *)
From Coq Require Import List ZArith Bool.
From Verif Require Import Base Num Libm KR_spec Workflow_spec.
Import ListNotations.
Local Open Scope nat_scope.

Definition ascending (times : list Z) : Prop := forall i j, i < j < length times -> (get 0 times i < get 0 times j)%Z.
(** times between 1970 and 2116 given in whole seconds, in nanoseconds *)
Definition whole_second (t : Z) : Prop := (0 <= t < 2 ^ 62)%Z /\ (10 ^ 9 | t)%Z.
Definition one_day : Z := (24 * 60 * 60 * 1000000000)%Z.

(** [N] bins of width [w], the first one starting at [a]: they start a whole
    number of widths after the midnight before the first time, the first time
    lies in the first and the last time in the last bin *)
Record bins (w : Z) (times : list Z) (a : Z) (N : nat) : Prop := {
  bins_grid : exists d k, (a = one_day * d + w * k /\ one_day * d <= hd 0 times < one_day * (d + 1))%Z;
  bins_first : (a <= hd 0 times < a + w)%Z;
  bins_last : (a + w * (Z.of_nat N - 1) <= last times 0 < a + w * Z.of_nat N)%Z }.
(** sample [i] lies in bin [n] *)
Definition in_bin (w : Z) (times : list Z) (a : Z) (n i : nat) : Prop :=
  i < length times /\ (a + w * Z.of_nat n <= get 0 times i < a + w * (Z.of_nat n + 1))%Z.

(** [P] holds at [t], or [t] lies between two samples at most [g] apart where [P] holds *)
Definition reached (P : nat -> Prop) (times : list Z) (g : Z) (t : nat) : Prop :=
  P t \/ exists i j, in_gap P (length times) i t j /\ (get 0 times j - get 0 times i <= g)%Z.

Section Spec.
Context {O : numops}.
(** not a fill value *)
Definition received (lo : O) (rsl : list O) (t : nat) : Prop := n_ltb lo (get n_nan rsl t) = true.
Definition sent (hi : O) (tsl : list O) (t : nat) : Prop := n_ltb (get n_nan tsl t) hi = true.

(** [mn] and [mx] are the extremes of the levels of bin [n] *)
Definition extremes (w : Z) (times : list Z) (a : Z) (level : list O) (n : nat) (mn mx : O) : Prop :=
  ((forall i, in_bin w times a n i -> missing (get n_nan level i)) -> missing mn /\ missing mx) /\
  (forall i, in_bin w times a n i -> ~ missing (get n_nan level i) ->
     n_leb mn (get n_nan level i) = true /\ n_leb (get n_nan level i) mx = true /\
     (exists j, in_bin w times a n j /\ get n_nan level j = mn) /\ (exists j, in_bin w times a n j /\ get n_nan level j = mx)).

(** two records with the same samples before time [E], the first [m] ones *)
Definition same_until (E : Z) (m : nat) (times times' : list Z) (rsl rsl' tsl tsl' : list (list O)) : Prop :=
  1 <= m <= length times /\ m <= length times' /\ length rsl = length rsl' /\ length tsl = length tsl' /\
  (forall t, t < m -> get 0%Z times t = get 0%Z times' t) /\
  (forall t, m <= t < length times -> (E <= get 0%Z times t)%Z) /\ (forall t, m <= t < length times' -> (E <= get 0%Z times' t)%Z) /\
  (forall i t, i < length rsl -> t < m -> get n_nan (get [] rsl i) t = get n_nan (get [] rsl' i) t) /\
  (forall i t, i < length tsl -> t < m -> get n_nan (get [] tsl i) t = get n_nan (get [] tsl' i) t).
End Spec.
