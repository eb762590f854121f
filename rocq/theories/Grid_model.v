(** * Model of the grid generation and of the climatological variogram in
    /repo/pycomlink/spatial/interpolator.py, exact arithmetic

    Simplified: numbers are reals.  (In binary64 [np.arange] rounds the number
    of coordinates and each coordinate.) *)
From Coq Require Import List ZArith Bool Reals.
From Flocq Require Import Core.Raux Core.Generic_fmt.
From Verif Require Import Base.
Import ListNotations.
Local Open Scope R_scope.

(** Python's [min(list)], [max(list)]: ValueError for an empty list *)
Definition py_list_min (l : list R) : res R := match l with [] => Err ValueError | x :: t => Ok (fold_left Rmin t x) end.
Definition py_list_max (l : list R) : res R := match l with [] => Err ValueError | x :: t => Ok (fold_left Rmax t x) end.

(** [np.arange(start, stop, step)] of Python numbers (numpy scalars: see
    Grid64_model.v, where a zero step is a ValueError) *)
Definition arange (start stop step : R) : res (list R) :=
  if Req_bool step 0 then Err ZeroDivisionError
  else Ok (map (fun i => start + INR i * step) (seq 0 (Z.to_nat (Zceil ((stop - start) / step))))).

(** [np.meshgrid(xcoords, ycoords)] *)
Definition meshgrid (xc yc : list R) : list (list R) * list (list R) :=
  (repeat xc (length yc), map (fun y => repeat y (length xc)) yc).

(** interpolator.py:177-208 [_parse_grid_kwargs] *)
Definition parse_grid_kwargs (x y : list R) (xgrid ygrid : option (list (list R))) (resolution : option R)
  : res (list (list R) * list (list R)) :=
  match xgrid, ygrid with
  | Some xg, Some yg => Ok (xg, yg)
  | _, _ =>
    match resolution with
    | None => Err ValueError
    | Some r =>
        do xmin <- py_list_min x; do xmax <- py_list_max x;
        do xc <- arange (xmin - r) (xmax + r) r;
        do ymin <- py_list_min y; do ymax <- py_list_max y;
        do yc <- arange (ymin - r) (ymax + r) r;
        Ok (meshgrid xc yc)
    end
  end.

(** day number of a Gregorian date, as [strftime('%j')] *)
Definition leap (y : Z) : bool := ((y mod 4 =? 0) && (negb (y mod 100 =? 0) || (y mod 400 =? 0)))%Z%bool.
Definition days_before (y : Z) (m : nat) : Z :=
  (nth (m - 1) [0; 31; 59; 90; 120; 151; 181; 212; 243; 273; 304; 334]%Z 334%Z + (if (Nat.ltb 2 m && leap y)%bool then 1 else 0))%Z.
Definition julian_day (y : Z) (m d : nat) : Z := (days_before y m + Z.of_nat d)%Z.

Record variogram := { v_sill : R; v_range : R; v_nugget : R }.

(** interpolator.py:211-260 [clim_var_param] from the day number on; [h] is
    [time_scale_hours].  0.0 raised to a negative power raises
    ZeroDivisionError.  Not modelled: negative [h] (complex numbers). *)
Definition clim_var_param (jd h : R) : res variogram :=
  if Req_bool h 0 then Err ZeroDivisionError else
  let f := 1 / 365 in
  let range_m := (1551 / 100 * Rpower h (9 / 100)
                  + 206 / 100 * Rpower h (- (12 / 100)) * cos (2 * PI * f * (jd - 737 / 100 * Rpower h (22 / 100)))) ^ 4 in
  let sill := (84 / 100 * Rpower h (- (25 / 100))
               + 20 / 100 * Rpower h (- (37 / 100)) * cos (2 * PI * f * (jd - 162 * Rpower h (- (3 / 100))))) ^ 4 in
  Ok {| v_sill := sill; v_range := range_m / 1000; v_nugget := 1 / 10 * sill |}.
Definition clim_var_param_date (y : Z) (m d : nat) (h : R) : res variogram := clim_var_param (IZR (julian_day y m d)) h.
