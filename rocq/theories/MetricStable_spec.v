(** * Vocabulary for validation metrics of inaccurate series *)
From Coq Require Import List Reals.
From Flocq Require Import Core.Raux.
From Verif Require Import Base Num Stats_spec.
Import ListNotations.
Local Open Scope R_scope.

(** finite numbers that differ by at most [d] *)
Definition reals_within (d : R) (x y : XR) : Prop :=
  exists a b, x = XFin a /\ y = XFin b /\ Rabs (b - a) <= d.

(** the prediction of the pair lies within [d] of the threshold [t] *)
Definition borderline (d t : R) (q : R * R) : bool := Rle_bool (Rabs (snd q - t)) d.
(** the reference of the pair is dry (wet) for the threshold [t] *)
Definition ref_dry (t : R) (q : R * R) : bool := negb (Rlt_bool t (fst q)).
Definition ref_wet (t : R) (q : R * R) : bool := Rlt_bool t (fst q).
