(** * Recalibrated predictions *)
From Coq Require Import List Reals.
From Verif Require Import Base Num.
Import ListNotations.
Local Open Scope R_scope.

(** [a * x + b] for each sample; a missing sample stays missing *)
Definition recalibrate (a b : R) (l : list XR) : list XR := map (fun x : XR => match x with XFin v => XFin (a * v + b) | y => y end) l.
(** not all samples are the same *)
Definition varies (l : list R) : Prop := exists x y, In x l /\ In y l /\ x <> y.
