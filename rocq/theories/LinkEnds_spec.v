(** * The same links, some of them entered with their ends exchanged *)
From Coq Require Import List Bool.
From Verif Require Import Base Num Libm.
Import ListNotations.
Local Open Scope nat_scope.

Section Spec.
Context {O : numops}.
Definition at_ (l : list O) (i : nat) : O := get n_nan l i.
Definition same_links (n : nat) (lata lona latb lonb lata' lona' latb' lonb' : list O) : Prop := forall i, i < n ->
  (at_ lata' i = at_ lata i /\ at_ lona' i = at_ lona i /\ at_ latb' i = at_ latb i /\ at_ lonb' i = at_ lonb i) \/
  (at_ lata' i = at_ latb i /\ at_ lona' i = at_ lonb i /\ at_ latb' i = at_ lata i /\ at_ lonb' i = at_ lona i).

(** what C99 says about NaN arguments of these functions *)
Definition nan_in_nan_out (L : libm O) : Prop := forall x : O, n_isnan x = true ->
  n_isnan (m_radians L x) = true /\ n_isnan (m_sin L x) = true /\ n_isnan (m_cos L x) = true /\
  forall y, n_isnan (m_atan2 L x y) = true.
End Spec.
