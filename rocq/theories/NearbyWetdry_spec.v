(** * Vocabulary for the nearby-link wet/dry classification *)
From Coq Require Import List ZArith Bool Arith.
From Verif Require Import Base Num RealStat Median NearbyWetdry_model.
Import ListNotations.
Local Open Scope nat_scope.

Section Spec.
Context {O : numops}.
Definition cell (m : list (list O)) (i j : nat) : O := get n_nan (get [] m i) j.

(** all four endpoint distances below the radius *)
Definition neighbour (d : distances O) (radius : O) (i j : nat) : bool :=
  n_ltb (cell (a_to_all_a d) i j) radius && n_ltb (cell (a_to_all_b d) i j) radius &&
  n_ltb (cell (b_to_all_a d) i j) radius && n_ltb (cell (b_to_all_b d) i j) radius.
Definition neighbours (d : distances O) (radius : O) (n i : nat) : list nat :=
  filter (neighbour d radius i) (seq 0 n).

(** the numbers among [f k] for the last [w] steps [k] up to [t] *)
Definition recent (w t : nat) (f : nat -> O) : list O :=
  filter (fun x => negb (n_isnan x)) (map f (seq (t + 1 - w) (t + 1 - (t + 1 - w)))).
Definition numbers (l : list O) : list O := filter (fun x => negb (n_isnan x)) l.

(** drop of the signal level below the maximum of the last [w] steps *)
Definition is_drop (pmin : list (list O)) (w k : nat) (dP : nat -> nat -> O) (i t : nat) : Prop :=
  let v := recent w t (cell pmin i) in
  (length v < k -> n_isnan (dP i t) = true) /\
  (k <= length v -> exists m, is_max v m /\ dP i t = n_sub (cell pmin i t) m).

(** median over the neighbours, if more than [min_links] of them have data *)
Definition is_link_median (dP dX : nat -> nat -> O) (nb : list nat) (min_links t : nat) (m : O) : Prop :=
  let have := numbers (map (fun j => dP j t) nb) in
  let v := numbers (map (fun j => dX j t) nb) in
  (length have <= min_links -> m = n_nan) /\ (min_links < length have -> v = [] -> m = n_nan) /\
  (min_links < length have -> v <> [] -> is_median v m).

(** square matrices of the right size *)
Definition square (n : nat) (d : distances O) : Prop := forall m, In m [a_to_all_a d; a_to_all_b d; b_to_all_a d; b_to_all_b d] ->
  length m = n /\ forall i, i < n -> length (get [] m i) = n.

(** rain by the median rule at [t]; both medians must be numbers *)
Definition median_rule (thrP thrPL : O) (mP mPL : nat -> O) (t : nat) : bool := n_ltb (mP t) thrP && n_ltb (mPL t) thrPL.
(** strong rain: the link's own level dropped by more than 2 dB *)
Definition strong (thrP thrPL : O) (mP mPL own : nat -> O) (t : nat) : bool :=
  median_rule thrP thrPL mP mPL t && n_ltb (own t) (n_ofZ (-2)).

(** consistent array sizes, windows that fit, and every link within its own radius *)
Record call_ok (T : nat) (pmin : list (list O)) (lens : list O) (d : distances O) (radius : O) (interval tp mh : nat) : Prop := {
  ok_rows : forall i, i < length pmin -> length (get [] pmin i) = T;
  ok_lens : length lens = length pmin;
  ok_square : square (length pmin) d;
  ok_interval : interval <> 0;
  ok_hours : 1 <= mh * 60 / interval <= tp * 60 / interval;
  ok_period : tp * 60 / interval <= T;
  ok_window : tp * 4 <= T;
  ok_self : forall i, i < length pmin -> neighbour d radius i i = true }.
End Spec.
