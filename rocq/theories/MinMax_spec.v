(** * Vocabulary for the min/max attenuation *)
From Coq Require Import List ZArith Bool Reals.
From Verif Require Import Base Num.
Import ListNotations.

Section Spec.
Context {O : numops}.
Definition bias (gT gR : O) : O := n_div (n_add gT gR) (n_ofZ 2).
(** bias-corrected attenuations at step [i] *)
Definition corrected_max (tx_max rx_min : list O) (gT gR : O) (i : nat) : O :=
  n_sub (n_sub (get n_nan tx_max i) (get n_nan rx_min i)) (bias gT gR).
Definition corrected_min (tx_min rx_max : list O) (gT gR : O) (i : nat) : O :=
  n_add (n_sub (get n_nan tx_min i) (get n_nan rx_max i)) (bias gT gR).
(** missing values replaced *)
Definition filled (fill x : O) : O := if n_isnan x then fill else x.
Definition positive_part (x : O) : O := if n_ltb x (n_ofZ 0) then n_ofZ 0 else x.
(** the values of [f] at steps [s .. s+k-1] that are numbers *)
Definition numbers (f : nat -> O) (n : nat) : list O :=
  filter (fun x => negb (n_isnan x)) (map f (seq 0 n)).
End Spec.
