(** * Neighbour search and coordinate changes in binary64 *)
From Coq Require Import List ZArith Bool Reals Permutation.
From Flocq Require Import Core IEEE754.BinarySingleNaN.
From Verif Require Import Base Num NumF64 NumList Idw_spec.
Import ListNotations.

Notation place := (F64 * F64)%type.
(** squared distance as scipy computes it, in binary64 *)
Definition sqdist (a b : place) : F64 :=
  n_add (n_mul (n_sub (fst a) (fst b)) (n_sub (fst a) (fst b))) (n_mul (n_sub (snd a) (snd b)) (n_sub (snd a) (snd b))).
(** a float that is a number; its real value is [B2R] *)
Definition number (x : F64) : Prop := exists r, f_val x = XFin r.

(** scipy's contract for [eps = 0] in binary64: neighbours are ordered and cut off by
    the squared distances ([distance_upper_bound] is squared, too), and the square
    roots are returned *)
Definition search_ok (query : list place -> place -> nat -> F64 -> option F64 -> list (F64 * nat)) : Prop :=
  forall (X : list place) (q : place) k (ub : option F64),
  (forall x, In x X -> number (sqdist q x)) -> (forall u, ub = Some u -> number (n_mul u u)) ->
  exists used pad, is_nearest (fun i => B2R (sqdist q (get (n_nan, n_nan) X i))) (length X) k (option_map (fun u : F64 => B2R (n_mul u u)) ub) used /\
    query X q k zero ub = map (fun i => (n_sqrt (sqdist q (get (n_nan, n_nan) X i)), i)) used ++ repeat (pad, length X) (k - length used).

(** no overflow, and no two stations at the same computed squared distance from [q] *)
Definition told_apart (q : place) (X : list place) : Prop :=
  (forall x, In x X -> number (sqdist q x)) /\ NoDup (map (fun x => B2R (sqdist q x)) X).

(** reflections of the map *)
Definition mirror_x (a : place) : place := (n_opp (fst a), snd a).
Definition mirror_y (a : place) : place := (fst a, n_opp (snd a)).
Definition exchange (a : place) : place := (snd a, fst a).
(** everything moved by (cx, cy) *)
Definition shifted (cx cy : F64) (a : place) : place := (n_add (fst a) cx, n_add (snd a) cy).
(** a multiple of 2^-q, at most 2^50 of them: whole metres for q = 0, ... *)
Definition on_raster (q : Z) (x : F64) : Prop := exists z : Z, (Z.abs z <= 2 ^ 50)%Z /\ f_val x = XFin (IZR z * bpow radix2 (- q)).
Definition place_on_raster (q : Z) (a : place) : Prop := on_raster q (fst a) /\ on_raster q (snd a).
