(** * Model of the common part of the grid interpolators and of
    [OrdinaryKrigingInterpolator], /repo/pycomlink/spatial/interpolator.py

    pykrige is an argument: [krige x y z xi yi] is what
    [OrdinaryKriging(x, y, z, ...).execute("points", xi, yi, ...)] returns
    (values and variances) or raises, for the settings of the object.  The
    settings (lines 120-140) are only passed on to it, so they are part of
    [krige].  Grids are given; grid generation is modelled in Grid_model.v. *)
From Coq Require Import List ZArith Bool.
From Verif Require Import Base Num NumList NpOps Idw_model.
Import ListNotations.
Local Open Scope nat_scope.

Section Model.
Context {O : numops}.

(** a 2-D array of floats or of integers *)
Inductive grid := FloatGrid (g : list (list O)) | IntGrid (g : list (list Z)).
Definition grid_values (g : grid) : list (list O) :=
  match g with FloatGrid g => g | IntGrid g => map (map n_ofZ) g end.

(** interpolator.py:30-67 [PointsToGridInterpolator.__call__] for any
    subclass: [interpol] is its [_interpol_func], [St] its attributes.  Lines
    56-58: [np.zeros_like] keeps the type of the grid, and NaN cannot be stored
    in an integer array (ValueError).  The attributes xgrid, ygrid and zgrid
    are never read and left out. *)
Definition points_to_grid {St} (interpol : St -> list O -> list O -> list O -> list O -> list O -> St * res (list O))
  (s : St) (x y z : list O) (rows cols : nat) (xgrid ygrid : grid) : St * res (list (list O)) :=
  if negb (Nat.eqb (length x) (length y) && Nat.eqb (length y) (length z)) then (s, Err AssertionError) else
  if forallb n_isnan z then
    (s, match xgrid with
        | FloatGrid _ => Ok (repeat (repeat (n_nan : O) cols) rows)
        | IntGrid _ => Err ValueError
        end)
  else
    let '(s', r) := interpol s x y z (concat (grid_values xgrid)) (concat (grid_values ygrid)) in
    (s', do zi <- r; if Nat.eqb (length zi) (rows * cols) then Ok (reshape rows cols zi) else Err ValueError).

(** interpolator.py:119-140 the object: [exclude_nan] and the attributes that
    calls set, None before the first *)
Record kriging := { k_exclude_nan : bool; k_z : option (list O); k_sigma : option (list O) }.
Definition new_kriging (exclude_nan : bool) : kriging := {| k_exclude_nan := exclude_nan; k_z := None; k_sigma := None |}.

(** interpolator.py:142-174 [_interpol_func] *)
Definition krige_func (krige : list O -> list O -> list O -> list O -> list O -> res (list O * list O))
  (s : kriging) (x y z xi yi : list O) : kriging * res (list O) :=
  let keep := map (fun v => negb (n_isnan v)) z in
  let sel := fun l => if k_exclude_nan s then mask_select n_nan keep l else l in
  let x := sel x in let y := sel y in let z := sel z in
  match krige x y z xi yi with
  | Err e => ({| k_exclude_nan := k_exclude_nan s; k_z := Some z; k_sigma := k_sigma s |}, Err e)
  | Ok (zi, sigma) => ({| k_exclude_nan := k_exclude_nan s; k_z := Some z; k_sigma := Some sigma |}, Ok zi)
  end.
Definition krige_call krige := points_to_grid (krige_func krige).
End Model.
Arguments grid : clear implicits.
Arguments kriging : clear implicits.
