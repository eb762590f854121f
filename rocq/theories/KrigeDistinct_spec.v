(** * Networks with all stations at different places *)
From Coq Require Import List Reals.
From Verif Require Import RealSpec.
Import ListNotations.

Definition apart (x y : list R) : Prop := forall i j, (i < j < length x)%nat -> rget x i <> rget x j \/ rget y i <> rget y j.
