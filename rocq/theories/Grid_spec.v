(** * Vocabulary for generated grids *)
From Coq Require Import List Reals ZArith.
From Verif Require Import Base.
Import ListNotations.
Local Open Scope R_scope.

Definition least (l : list R) (m : R) : Prop := In m l /\ forall x, In x l -> m <= x.
Definition greatest (l : list R) (m : R) : Prop := In m l /\ forall x, In x l -> x <= m.

(** coordinates start below the least value, advance by [r], and end at or
    beyond the greatest one, less than [r] beyond *)
Definition covers (l : list R) (r : R) (c : list R) : Prop :=
  exists lo hi, least l lo /\ greatest l hi /\ (2 <= length c)%nat /\
  (forall i, (i < length c)%nat -> get 0 c i = lo - r + INR i * r) /\
  hi <= get 0 c (length c - 1) < hi + r.

(** the Gregorian calendar, and the number of a day in its year *)
Definition leap_year (y : Z) : Prop := ((4 | y) /\ (~ (100 | y) \/ (400 | y)))%Z.
Definition days_in_month (y : Z) (m n : nat) : Prop :=
  (In m [1; 3; 5; 7; 8; 10; 12] /\ n = 31 \/ In m [4; 6; 9; 11] /\ n = 30 \/
   m = 2 /\ leap_year y /\ n = 29 \/ m = 2 /\ ~ leap_year y /\ n = 28)%nat.
Inductive day_number (y : Z) : nat -> nat -> Z -> Prop :=
| january_first : day_number y 1 1 1
| next_day m d n k : day_number y m d k -> days_in_month y m n -> (d < n)%nat -> day_number y m (S d) (k + 1)
| next_month m d k : day_number y m d k -> days_in_month y m d -> (m < 12)%nat -> day_number y (S m) 1 (k + 1).
