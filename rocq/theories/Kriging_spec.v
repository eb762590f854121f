(** * Histories of calls of one kriging interpolator *)
From Coq Require Import List ZArith Bool.
From Verif Require Import Base Num Kriging_model.
Import ListNotations.

Section History.
Context {O : numops} (krige : list O -> list O -> list O -> list O -> list O -> res (list O * list O)).

Record call_args := { c_x : list O; c_y : list O; c_z : list O; c_rows : nat; c_cols : nat; c_xgrid : grid O; c_ygrid : grid O }.
Definition call (s : kriging O) (a : call_args) : kriging O * res (list (list O)) :=
  krige_call krige s (c_x a) (c_y a) (c_z a) (c_rows a) (c_cols a) (c_xgrid a) (c_ygrid a).
Fixpoint results (s : kriging O) (l : list call_args) : list (res (list (list O))) :=
  match l with
  | [] => []
  | a :: l => let '(s', r) := call s a in r :: results s' l
  end.
(** the object after the calls *)
Fixpoint after (s : kriging O) (l : list call_args) : kriging O :=
  match l with [] => s | a :: l => after (fst (call s a)) l end.
End History.
