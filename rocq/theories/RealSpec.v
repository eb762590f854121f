(** * Arrays of real numbers, for statements in exact arithmetic *)
From Coq Require Import List Reals.
From Verif Require Import Base Num.
Import ListNotations.

(** an array of real numbers as an array of extended reals *)
Definition ofR (l : list R) : list XR := map (fun r => (XFin r : XR)) l.
Definition rget (l : list R) (i : nat) : R := get 0%R l i.

Lemma ofR_length l : length (ofR l) = length l.
Proof. apply map_length. Qed.

Lemma ofR_get (d : XR) l i : i < length l -> get d (ofR l) i = XFin (rget l i).
Proof. intros. unfold ofR, rget. rewrite get_map with (d := 0%R) by auto. reflexivity. Qed.

(** element [i] of an exact-arithmetic result *)
Definition xat (l : list XR) (i : nat) : xr := get (n_nan : XR) l i.
