(** * What GridValidator should compute *)
From Coq Require Import List ZArith Bool.
From Verif Require Import Base Num NumList.
Import ListNotations.
Local Open Scope nat_scope.

Section Spec.
Context {O : numops}.

(** H x W matrix *)
Definition mat (H W : nat) (m : list (list O)) : Prop := length m = H /\ forall i, i < H -> length (get [] m i) = W.
Definition at2 (m : list (list O)) (i j : nat) : O := nget (get [] m i) j.
(** one cell's contribution: 0 if the product is undefined *)
Definition contribution (g w : list (list O)) (i j : nat) : O :=
  let p := n_mul (at2 g i j) (at2 w i j) in if n_isnan p then zero else p.
(** the weighted sum over the whole grid *)
Definition whole_sum (H W : nat) (g w : list (list O)) : O :=
  n_sum (List.concat (map (fun i => map (contribution g w i) (seq 0 W)) (seq 0 H))).
End Spec.

(** the grid time a sample time belongs to, for grid times that label the end (right)
    or start (left) of their interval *)
Definition belongs_right (index : list Z) (t : Z) (i : nat) : Prop :=
  i < length index /\ (t <= get 0%Z index i)%Z /\ forall j, j < i -> (get 0%Z index j < t)%Z.
Definition belongs_left (index : list Z) (t : Z) (i : nat) : Prop :=
  i < length index /\ (get 0%Z index i <= t)%Z /\ forall j, i < j < length index -> (t < get 0%Z index j)%Z.
(** the same as functions: as many grid times lie before the sample as have a smaller
    index *)
Definition owner_right (index grid : list Z) (t : Z) : option Z := nth_error grid (length (filter (fun k => (k <? t)%Z) index)).
Definition owner_left (index grid : list Z) (t : Z) : option Z :=
  match length (filter (fun k => (k <=? t)%Z) index) with 0 => None | S i => nth_error grid i end.
Definition ascending (l : list Z) : Prop := forall i j, i < j < length l -> (get 0%Z l i < get 0%Z l j)%Z.
(** mean of the numbers among the samples owned by [k] *)
Definition owned_mean {O : numops} (owner : Z -> option Z) (df : list (Z * O)) (k : Z) : O :=
  n_mean (filter (fun x => negb (n_isnan x)) (map snd (filter (fun p => match owner (fst p) with Some k' => Z.eqb k' k | None => false end) df))).
(** the grid times of a weighted sum, localised *)
Definition index_of {O : numops} (loc : option (Z -> Z)) (ws : list (Z * O)) : list Z := map (fun p => match loc with None => fst p | Some f => f (fst p) end) ws.
