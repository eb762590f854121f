(** * Model of what /repo/pycomlink/spatial/interpolator.py:142-174 gets from pykrige

    [OrdinaryKriging(x, y, z, ...)] and [execute("points", ...)] are library
    code; this is the algorithm of its backends "C" (the default of
    interpolator.py:129) and "vectorized" for [n_closest_points=None] (the
    default, 126).  Kriging_model.v treats the same call as an arbitrary
    function [krige]; [pykrige] below is one such function.
    Simplified: the anisotropy correction with scaling 1 and angle 0 is the
    identity and left out; the experimental variogram is computed by pykrige but not used
    when parameters are given (125), so only its failure for a single
    point is kept.  Not modelled: NaN or infinite coordinates.
    [n_closest_points] is in KrigeWin_model.v. *)
From Coq Require Import List ZArith Bool.
From Verif Require Import Base Num NumList.
Import ListNotations.
Local Open Scope nat_scope.

Section Model.
Context {O : numops}.

(** interpolator.py:125 [{"sill", "range", "nugget"}] and pykrige's spherical
    model: the partial sill is sill - nugget *)
Record vparams := { p_sill : O; p_range : O; p_nugget : O }.
Definition spherical (p : vparams) (d : O) : O :=
  let psill := n_sub (p_sill p) (p_nugget p) in
  if n_leb d (p_range p) then
    n_add (n_mul psill (n_sub (n_div (n_mul (n_ofZ 3) d) (n_mul (n_ofZ 2) (p_range p)))
                              (n_div (n_mul d (n_mul d d))
                                     (n_mul (n_ofZ 2) (n_mul (p_range p) (n_mul (p_range p) (p_range p)))))))
          (p_nugget p)
  else n_add psill (p_nugget p).

(** the variogram function of the settings (interpolator.py:124-125) *)
Variable vg : O -> O.
(** [scipy.linalg.inv]: an oracle *)
Variable inv : list (list O) -> res (list (list O)).

(** scipy's Euclidean distance *)
Definition dist (x y x' y' : O) : O :=
  let dx := n_sub x x' in let dy := n_sub y y' in n_sqrt (n_add (n_mul dx dx) (n_mul dy dy)).

(** the kriging matrix: minus the variogram between the points, 0 on the diagonal, bordered by ones *)
Definition kmat (x y : list O) : list (list O) :=
  let n := length x in
  map (fun i => map (fun j =>
    if Nat.eqb i n then (if Nat.eqb j n then zero else one)
    else if Nat.eqb j n then one
    else if Nat.eqb i j then zero
    else n_opp (vg (dist (get n_nan x i) (get n_nan y i) (get n_nan x j) (get n_nan y j))))
    (seq 0 (n + 1))) (seq 0 (n + 1)).

(** the right-hand side for one grid point: 0 for a point closer than 1e-10 *)
Definition kvec (x y : list O) (px py : O) : list O :=
  let n := length x in
  map (fun i =>
    if Nat.eqb i n then one
    else let d := dist px py (get n_nan x i) (get n_nan y i) in
         if n_leb (n_abs d) (n_lit 1 10) then zero else n_opp (vg d)) (seq 0 (n + 1)).

Definition ndot (u v : list O) : O := n_sum (map2 n_mul u v).

(** weights, value and variance at one grid point *)
Definition kweights (B : list (list O)) (b : list O) : list O := map (fun r => ndot r b) B.
Definition kpoint (B : list (list O)) (x y z : list O) (px py : O) : O * O :=
  let b := kvec x y px py in
  let w := kweights B b in
  (ndot w z, ndot w (map n_opp b)).

(** interpolator.py:155-171: [zi, sigma] *)
Definition pykrige (x y z xi yi : list O) : res (list O * list O) :=
  (* np.amax of the distances between the points *)
  if Nat.ltb (length x) 2 then Err ValueError else
  if negb (Nat.eqb (length xi) (length yi)) then Err ValueError else
  do B <- inv (kmat x y);
  let r := map2 (kpoint B x y z) xi yi in
  Ok (map fst r, map snd r).
End Model.
Arguments vparams : clear implicits.
