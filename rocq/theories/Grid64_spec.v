(** * Vocabulary: generated grids in binary64 *)
From Coq Require Import List ZArith Bool Reals.
From Verif Require Import Base Num NumF64 Grid_spec.
Import ListNotations.

(** the floats are finite and have these real values *)
Definition values (c : list F64) (r : list R) : Prop := map f_val c = map XFin r.
(** [xgrid] and [ygrid] are the two coordinate arrays of the product grid *)
Definition product_grid (xc yc : list F64) (g : list (list F64) * list (list F64)) : Prop :=
  length (fst g) = length yc /\ length (snd g) = length yc /\
  forall i, (i < length yc)%nat -> get [] (fst g) i = xc /\
    length (get [] (snd g) i) = length xc /\
    forall j, (j < length xc)%nat -> get n_nan (get [] (snd g) i) j = get n_nan yc i.
