(** * Properties C95, C96: the kriging interpolator; grids of integers *)
From Coq Require Import List ZArith Bool Lia.
From Verif Require Import Base Num NumF64 NumList Libm Libm64 Idw_model Idw_spec Kriging_model Kriging_spec Kriging_proofs.
Import ListNotations.
Local Open Scope nat_scope.

Theorem C95_solver_sees_valid_points_and_grid : forall krige (s : kriging F64) x y z rows cols xg yg,
  length x = length z -> length y = length z -> (exists v, In v z /\ n_isnan v = false) ->
  let sel a := if k_exclude_nan s then present z a else a in
  let out := krige (sel x) (sel y) (sel z) (concat (grid_values xg)) (concat (grid_values yg)) in
  let '(s', r) := krige_call krige s x y z rows cols xg yg in
  k_z s' = Some (sel z) /\
  (forall e, out = Err e -> r = Err e /\ k_sigma s' = k_sigma s) /\
  (forall zi sigma, out = Ok (zi, sigma) ->
     k_sigma s' = Some sigma /\
     (length zi <> rows * cols -> r = Err ValueError) /\
     (length zi = rows * cols -> exists zg, r = Ok zg /\ rectangular rows cols zg /\ concat zg = zi)).
Proof. exact (@krige_result F64). Qed.
Print Assumptions C95_solver_sees_valid_points_and_grid.

Theorem C95_nan_points_have_no_influence : forall krige (s : kriging F64) x y z rows cols xg yg,
  k_exclude_nan s = true -> (exists v, In v z /\ n_isnan v = false) -> length x = length z -> length y = length z ->
  krige_call krige s x y z rows cols xg yg = krige_call krige s (present z x) (present z y) (present z z) rows cols xg yg.
Proof. exact (@krige_exclude_nan F64). Qed.
Print Assumptions C95_nan_points_have_no_influence.

Theorem C95_history_independent : forall krige (l : list (@call_args F64)) s,
  results krige s l = map (fun a => snd (call krige (new_kriging (k_exclude_nan s)) a)) l.
Proof. exact (@krige_history F64). Qed.
Print Assumptions C95_history_independent.

Theorem C95_sigma_stays_from_earlier_call : forall krige (s : kriging F64) a,
  length (c_x a) = length (c_z a) -> length (c_y a) = length (c_z a) -> (forall v, In v (c_z a) -> n_isnan v = true) ->
  fst (call krige s a) = s.
Proof. exact (@stale_sigma F64). Qed.
Print Assumptions C95_sigma_stays_from_earlier_call.

(** a "solver" that returns the first value everywhere *)
Definition C95_krige (x y z xi yi : list F64) : res (list F64 * list F64) :=
  match z with [] => Err ValueError | v :: _ => Ok (map (fun _ => v) xi, xi) end.
Definition C95_call (z : list F64) (xg : grid F64) : call_args :=
  {| c_x := [#0; #4]; c_y := [#0; #0]; c_z := z; c_rows := 1; c_cols := 2; c_xgrid := xg; c_ygrid := FloatGrid [[#0; #0]] |}.
(** data, no data, other data; [sigma] after the second call is that of the first *)
Example C95_case :
  let fg := FloatGrid [[#1; #2]] in
  match results C95_krige (new_kriging true) [C95_call [fNaN; #7] fg; C95_call [fNaN; fNaN] fg; C95_call [#5; #7] fg],
        k_sigma (after C95_krige (new_kriging true) [C95_call [fNaN; #7] fg; C95_call [fNaN; fNaN] fg]) with
  | [Ok [a]; Ok [b]; Ok [c]], Some sg =>
      f_same_list a [#7; #7] && f_same_list b [fNaN; fNaN] && f_same_list c [#5; #5] && f_same_list sg [#1; #2]
  | _, _ => false end = true.
Proof. vm_compute. reflexivity. Qed.

Theorem C96_integer_grid_without_data_raises :
  forall (St : Type) interpol (s : St) (x y z : list F64) rows cols xg yg,
  length x = length z -> length y = length z -> (forall v, In v z -> n_isnan v = true) ->
  points_to_grid interpol s x y z rows cols (IntGrid xg) yg = (s, Err ValueError) /\
  points_to_grid interpol s x y z rows cols (FloatGrid (map (map n_ofZ) xg)) yg = (s, Ok (repeat (repeat n_nan cols) rows)).
Proof.
  exact (fun St i s x y z r c xg yg Hx Hy H =>
    conj (int_grid_all_nan i s x y z r c xg yg Hx Hy H) (float_grid_all_nan i s x y z r c _ yg Hx Hy H)).
Qed.
Print Assumptions C96_integer_grid_without_data_raises.

Theorem C96_integer_grid_with_data :
  forall (St : Type) interpol (s : St) (x y z : list F64) rows cols xg yg,
  (exists v, In v z /\ n_isnan v = false) ->
  points_to_grid interpol s x y z rows cols (IntGrid xg) (IntGrid yg)
  = points_to_grid interpol s x y z rows cols (FloatGrid (map (map n_ofZ) xg)) (FloatGrid (map (map n_ofZ) yg)).
Proof. exact (@int_grid_otherwise F64). Qed.
Print Assumptions C96_integer_grid_with_data.

Theorem C96_idw_is_an_instance : forall (L : libm F64) query (s : interp F64) x y z rows cols xg yg,
  points_to_grid (interpol_func L query) s x y z rows cols (FloatGrid xg) (FloatGrid yg)
  = interp_call L query s x y z rows cols xg yg.
Proof. exact (@idw_instance F64). Qed.
Print Assumptions C96_idw_is_an_instance.

(** IDW on an integer grid: fine with one value, ValueError without *)
Example C96_case :
  let c : settings F64 := {| cf_nnear := 2; cf_p := #1; cf_exclude_nan := true; cf_max_distance := None |} in
  let run z := snd (points_to_grid (interpol_func F64demo brute_query) (new_interp c) [#0; #4] [#0; #0] z 1 2 (IntGrid [[0; 4]])%Z (IntGrid [[0; 0]])%Z) in
  match run [#3; fNaN], run [fNaN; fNaN] with Ok [a], Err ValueError => f_same_list a [#3; #3] | _, _ => false end = true.
Proof. vm_compute. reflexivity. Qed.
