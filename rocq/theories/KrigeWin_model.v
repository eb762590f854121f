(** * Model of interpolator.py:155-171 with [n_closest_points] given

    /repo/pycomlink/spatial/interpolator.py:126, 135 and 169 pass
    [n_closest_points] on to pykrige, which then solves, for each grid point, the
    kriging system of the nearest stations only ("moving window"; backends
    "C" and "loop").  The neighbours come from scipy's [cKDTree.query]: the
    argument [query], as in Idw_model.v.
    Simplified: as in OrdKrige_model.v.  With more neighbours than valid
    stations the backend "C" reads outside of its arrays; the model stops with
    [OtherError] there and no theorem speaks about it. *)
From Coq Require Import List ZArith Bool.
From Verif Require Import Base Num NumList OrdKrige_model.
Import ListNotations.
Local Open Scope nat_scope.

Section Model.
Context {O : numops}.
(** the variogram function of the settings (interpolator.py:124-125) *)
Variable vg : O -> O.
(** [scipy.linalg.solve], LAPACK's dgesv in the backend "C": an oracle *)
Variable solve : list (list O) -> list O -> res (list O).
Variable query : list (O * O) -> O * O -> nat -> O -> option O -> list (O * nat).

(** selected rows and columns of the full kriging matrix [A] *)
Definition submatrix (A : list (list O)) (sel : list nat) : list (list O) :=
  map (fun i => map (fun j => get n_nan (get [] A i) j) sel) sel.

(** one grid point: value and variance *)
Definition window_point (A : list (list O)) (x y z : list O) (k : nat) (p : O * O) : res (O * O) :=
  let n := length x in
  let near := query (combine x y) p k zero None in
  let sel := map snd near in
  let a := submatrix A (sel ++ [n]) in
  let b := map (fun d => if n_leb (n_abs d) (n_lit 1 10) then zero else n_opp (vg d)) (map fst near) ++ [one] in
  do w <- solve a b;
  Ok (ndot (firstn k w) (map (get n_nan z) sel), ndot w (map n_opp b)).

Fixpoint window_points (A : list (list O)) (x y z : list O) (k : nat) (ps : list (O * O)) : res (list (O * O)) :=
  match ps with
  | [] => Ok []
  | p :: ps => do v <- window_point A x y z k p; do vs <- window_points A x y z k ps; Ok (v :: vs)
  end.

(** interpolator.py:155-171 with [n_closest_points = k] *)
Definition pykrige_window (k : nat) (x y z xi yi : list O) : res (list O * list O) :=
  if Nat.ltb (length x) 2 then Err ValueError else
  if Nat.leb k 1 then Err ValueError else
  if negb (Nat.eqb (length xi) (length yi)) then Err ValueError else
  if Nat.ltb (length x) k then Err OtherError else
  do r <- window_points (kmat vg x y) x y z k (combine xi yi);
  Ok (map fst r, map snd r).
End Model.
