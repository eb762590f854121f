(** * Vocabulary for ordinary kriging in exact arithmetic *)
From Coq Require Import List ZArith Bool Reals.
From Verif Require Import Base Num RealSpec RealStat SpecGram_proofs5 Idw_spec Kriging_model OrdKrige_model LinAlg.
Import ListNotations.
Local Open Scope R_scope.

(** distance of two points of the plane *)
Definition rdist (x y x' y' : R) : R := sqrt ((x - x') * (x - x') + (y - y') * (y - y')).

(** the variogram [vg] computes the real function [g] *)
Definition real_variogram (vg : XR -> XR) (g : R -> R) : Prop := forall d, 0 <= d -> vg (XFin d : XR) = (XFin (g d) : XR).

(** the spherical variogram with the documented parameters *)
Definition spherical_curve (sill range nugget d : R) : R :=
  if Rle_dec d range then (sill - nugget) * (3 / 2 * (d / range) - / 2 * (d / range) ^ 3) + nugget else sill.

(** Matrix inversion in exact arithmetic: the inverse, or LinAlgError for a
    matrix that maps some vector other than 0 to 0 *)
Definition square (N : nat) (A : list (list R)) : Prop := List.length A = N /\ forall r, In r A -> List.length r = N.
Definition mget (A : list (list R)) (i j : nat) : R := rget (get [] A i) j.
Definition exact_inv (inv : list (list XR) -> res (list (list XR))) : Prop :=
  forall N A, square N A ->
  (exists B, square N B /\ inv (map ofR A) = Ok (map ofR B) /\ inverse N (mget A) (mget B)) \/
  (inv (map ofR A) = Err OtherError /\ exists v, kernel N (mget A) v).

Section Spec.
Variables (g : R -> R) (x y : list R).
Let n := List.length x.
(** variogram between stations [i] and [j], 0 for a station with itself *)
Definition gam (i j : nat) : R := if Nat.eqb i j then 0 else g (rdist (rget x i) (rget y i) (rget x j) (rget y j)).
(** variogram between the place [(p, q)] and station [i], 0 at the station (within 1e-10) *)
Definition gam0 (p q : R) (i : nat) : R :=
  let d := rdist p q (rget x i) (rget y i) in if Rle_dec d (1 / 10 ^ 10) then 0 else g d.

(** weights [w] of the stations and multiplier [mu] for the place [(p, q)] *)
Definition krige_sys (p q : R) (w : nat -> R) (mu : R) : Prop :=
  tot w n = 1 /\ forall i, (i < n)%nat -> tot (fun j => gam i j * w j) n - mu = gam0 p q i.

(** the stations determine the weights *)
Definition regular : Prop := forall w mu,
  tot w n = 0 -> (forall i, (i < n)%nat -> tot (fun j => gam i j * w j) n - mu = 0) ->
  (forall i, (i < n)%nat -> w i = 0) /\ mu = 0.

(** variance of the error of the estimate with weights [w] *)
Definition est_var (p q : R) (w : nat -> R) : R :=
  2 * tot (fun i => w i * gam0 p q i) n - tot (fun i => tot (fun j => w i * w j * gam i j) n) n.
End Spec.

(** A call of [OrdinaryKrigingInterpolator()] with stations [x], [y], data [z]
    and grids [gx], [gy] of [rows] by [cols] points returns the field [zi] and
    stores the variances [sg], both listed row by row. *)
Definition kriged (vg : XR -> XR) inv (x y z : list R) (rows cols : nat) (gx gy : list (list R)) (zi sg : list R) : Prop :=
  exists s G, krige_call (pykrige vg inv) (new_kriging true) (ofR x) (ofR y) (ofR z) rows cols
                (FloatGrid (map ofR gx)) (FloatGrid (map ofR gy)) = (s, Ok G) /\
    rectangular rows cols G /\ concat G = ofR zi /\ k_sigma s = Some (ofR sg).
Definition krige_raises (vg : XR -> XR) inv (x y z : list R) (rows cols : nat) (gx gy : list (list R)) (e : exn) : Prop :=
  snd (krige_call (pykrige vg inv) (new_kriging true) (ofR x) (ofR y) (ofR z) rows cols
         (FloatGrid (map ofR gx)) (FloatGrid (map ofR gy))) = Err e.
(** [rows] by [cols] points *)
Definition is_grid (rows cols : nat) (gx : list (list R)) : Prop := List.length gx = rows /\ forall r, In r gx -> List.length r = cols.

(** spherical variogram with the settings [{"sill", "range", "nugget"}] *)
Definition sph (sill range nugget : R) : XR -> XR :=
  spherical {| p_sill := (XFin sill : XR); p_range := (XFin range : XR); p_nugget := (XFin nugget : XR) |}.

(** at least two stations, one value for each, grids of equal shape *)
Definition setting (x y z : list R) (rows cols : nat) (gx gy : list (list R)) : Prop :=
  List.length y = List.length x /\ List.length z = List.length x /\ (2 <= List.length x)%nat /\ is_grid rows cols gx /\ is_grid rows cols gy.
