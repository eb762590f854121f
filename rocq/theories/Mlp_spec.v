(** * Which samples each row of the MLP output is made from *)
From Coq Require Import List ZArith Bool.
From Verif Require Import Base Num NumList Median.
Import ListNotations.
Local Open Scope nat_scope.

Section Spec.
Context {O : numops}.
(** valid samples within 6 hours (one sample per minute): steps s-360 .. s+359 *)
Definition around (x : list O) (s : nat) : list O :=
  filter (fun v => negb (n_isnan v)) (map (nget x) (filter (fun i => Nat.leb s (i + 360) && Nat.ltb i (s + 360)) (seq 0 (length x)))).
(** [d] is [x] minus its rolling median; at least 120 valid samples are needed *)
Definition detrended (x d : list O) : Prop :=
  length d = length x /\
  forall s, s < length x -> exists m, nget d s = n_sub (nget x s) m /\
    (length (around x s) < 120 -> m = n_nan) /\ (120 <= length (around x s) -> is_median (around x s) m).
(** [d] holds the differences of consecutive samples *)
Definition differences (x d : list O) : Prop :=
  length d + 1 = length x /\ forall s, s < length d -> nget d s = n_sub (nget x (s + 1)) (nget x s).

(** the 40 values of [d] from [a] on, if there are that many and none is NaN *)
Definition clean (d : list O) (a : nat) (w : list O) : Prop :=
  a + 40 <= length d /\ length w = 40 /\ forall i, i < 40 -> nget w i = nget d (a + i) /\ n_isnan (nget d (a + i)) = false.

(** rows of the output: row [t] belongs to the windows from [t - lag] on *)
Definition row_spec (predict : list O -> res (O * O)) (lag : nat) (d1 d2 : list O) (t : nat) (row : O * O) : Prop :=
  (exists w1 w2, lag <= t /\ clean d1 (t - lag) w1 /\ clean d2 (t - lag) w2 /\ predict (w1 ++ w2) = Ok row) \/
  ((forall w1 w2, ~ (lag <= t /\ clean d1 (t - lag) w1 /\ clean d2 (t - lag) w2)) /\ row = (n_nan, n_nan)).
End Spec.
