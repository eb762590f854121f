(** * Model of the grid generation of
    /repo/pycomlink/spatial/interpolator.py in binary64

    Coordinates are numpy float arrays ([min(x_list)] is then a numpy scalar,
    whose division by zero gives inf or NaN instead of raising). *)
From Coq Require Import List ZArith Bool.
From Flocq Require Import IEEE754.BinarySingleNaN.
From Verif Require Import Base Num NumF64 NumList.
Import ListNotations.
Local Open Scope nat_scope.

(** Python's [min], [max]: a later element replaces the current one only if it
    compares as smaller (larger) *)
Definition list_min (l : list F64) : res F64 :=
  match l with [] => Err ValueError | x :: t => Ok (fold_left (fun m y => if n_ltb y m then y else m) t x) end.
Definition list_max (l : list F64) : res F64 :=
  match l with [] => Err ValueError | x :: t => Ok (fold_left (fun m y => if n_ltb m y then y else m) t x) end.

(** [ceil] of a finite number *)
Definition f_ceil (x : F64) : Z := let t := Btrunc x in if n_ltb (n_ofZ t) x then (t + 1)%Z else t.

(** [np.arange(start, stop, step)]: numpy computes the length in floating
    point, stores [start] and [start + step], and fills the rest with
    [start + i * ((start + step) - start)].  NaN and infinite lengths are
    ValueErrors.  Simplified: lengths above 2^53 (MemoryError, from 2^63 on
    ValueError) are one [OtherError]; lengths below -2^63 give no error. *)
Definition arange (start stop step : F64) : res (list F64) :=
  let span := n_sub stop start in
  let value := n_div span step in
  if n_isnan value || n_isinf value then Err ValueError else
  let len := if n_eqb value (n_ofZ 0) && negb (n_eqb span (n_ofZ 0))
             then (if Bsign value then 0%Z else 1%Z) else f_ceil value in
  if (2 ^ 53 <? len)%Z then Err OtherError else
  let next := n_add start step in
  let delta := n_sub next start in
  Ok (match Z.to_nat len with
      | 0 => []
      | 1 => [start]
      | S (S k) => start :: next :: map (fun i => n_add start (n_mul (n_ofZ (Z.of_nat i)) delta)) (seq 2 k)
      end).

(** [np.meshgrid(xcoords, ycoords)] *)
Definition meshgrid (xc yc : list F64) : list (list F64) * list (list F64) :=
  (repeat xc (length yc), map (fun y => repeat y (length xc)) yc).

(** interpolator.py:177-208 [_parse_grid_kwargs] *)
Definition parse_grid_kwargs (x y : list F64) (xgrid ygrid : option (list (list F64))) (resolution : option F64)
  : res (list (list F64) * list (list F64)) :=
  match xgrid, ygrid with
  | Some xg, Some yg => Ok (xg, yg)
  | _, _ =>
    match resolution with
    | None => Err ValueError
    | Some r =>
        do xmin <- list_min x; do xmax <- list_max x;
        do xc <- arange (n_sub xmin r) (n_add xmax r) r;
        do ymin <- list_min y; do ymax <- list_max y;
        do yc <- arange (n_sub ymin r) (n_add ymax r) r;
        Ok (meshgrid xc yc)
    end
  end.
