(** * Model of /repo/pycomlink/spatial/coverage.py

    Oracle: [buffer d l p] says whether point [p] intersects the polygon
    [LineString(l).buffer(d, cap_style=1)] (shapely).  A point intersects a union
    exactly if it intersects one of the parts.  [has_cascaded] says whether shapely
    still has [ops.cascaded_union] (removed in 2.0; requirements.txt pins no
    version).  Simplified: progress bars are left out; a two-dimensional array is
    its number of rows and columns and the row-major values. *)
From Coq Require Import List Bool Arith.
From Verif Require Import Base.
Import ListNotations.
Local Open Scope nat_scope.

Section Coverage.
Context {N : Type}.

(** [metadata["site_a_longitude"]], ... of a Comlink *)
Record cml := { lon_a : N; lat_a : N; lon_b : N; lat_b : N }.
Definition line := ((N * N) * (N * N))%type.

Record array2 (A : Type) := { a_rows : nat; a_cols : nat; a_flat : list A }.

(** [np.array(l).reshape(shape)] *)
Definition reshape {A} (l : list A) (rows cols : nat) : res (array2 A) :=
  if length l =? rows * cols then Ok {| a_rows := rows; a_cols := cols; a_flat := l |} else Err ValueError.

(** coverage.py:8-71 *)
Definition calc_coverage_mask (has_cascaded : bool) (buffer : N -> line -> N * N -> bool)
    (cml_list : list cml) (xgrid ygrid : array2 N) (max_dist_from_cml : N) : res (array2 bool) :=
  let cml_lines := map (fun c => buffer max_dist_from_cml ((lon_a c, lat_a c), (lon_b c, lat_b c))) cml_list in
  if negb has_cascaded then Err AttributeError
  else
    let cml_multi_line := fun p => existsb (fun b => b p) cml_lines in
    let grid_points := combine (a_flat _ xgrid) (a_flat _ ygrid) in
    let covered_list := map (fun p => if cml_multi_line p then true else false) grid_points in
    reshape covered_list (a_rows _ xgrid) (a_cols _ xgrid).
End Coverage.
Arguments cml : clear implicits.
Arguments a_rows {_} _.
Arguments a_cols {_} _.
Arguments a_flat {_} _.
