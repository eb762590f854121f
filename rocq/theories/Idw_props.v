(** * Properties C39-C44 and C86: inverse distance weighting *)
From Coq Require Import List ZArith Bool Reals Lra Lia.
From Verif Require Import Base Num NumF64 NumList NpOps Libm Libm64 RealSpec RealStat
  Idw_model Idw_spec Idw_proofs Idw_proofs2 Idw_proofs3.
Import ListNotations.
Local Open Scope nat_scope.

Theorem C39_idw_weighted_mean_exact : forall query (X qs : list rpt) (z : list R) k (p : R) ub t,
  query_ok query -> new_tree (map ofP X) = Ok t -> length z = length X -> qs <> [] -> 2 <= k ->
  exists v, snd (tree_call XRm query t (map ofP qs) (ofR z) k zero (XFin p : XR) (ofU ub)) = Ok v /\ length v = length qs /\
  forall j, j < length qs -> exists used,
    is_nearest (dist_to X (get (0%R, 0%R) qs j)) (length X) k ub used /\
    is_idw (dist_to X (get (0%R, 0%R) qs j)) z p used (get (n_nan : XR) v j) /\
    (used = [] <-> get (n_nan : XR) v j = n_nan) /\
    (used = [] <-> forall i, i < length X -> ~ in_range (dist_to X (get (0%R, 0%R) qs j)) ub i) /\
    forall lo hi, (forall i, In i used -> (lo <= rget z i <= hi)%R) -> used <> [] ->
      exists r, get (n_nan : XR) v j = (XFin r : XR) /\ (lo <= r <= hi)%R.
Proof. exact idw_summary. Qed.
Print Assumptions C39_idw_weighted_mean_exact.

Theorem C39_query_contract_satisfiable : query_ok brute_query.
Proof. exact brute_query_ok. Qed.
Print Assumptions C39_query_contract_satisfiable.

(** three points, the far one out of reach, the query point three times closer to the first *)
Example C39_case :
  match new_tree [(#0, #0); (#4, #0); (#9, #9)] with
  | Ok t => match snd (tree_call F64demo brute_query t [(#1, #0); (#100, #100)] [#10; #30; #77] 3 zero #1 (Some #8)) with
            | Ok v => f_same_list v [f_mul (f_div #3 #4) #10; fNaN] || f_same_list v [#15; fNaN] | Err _ => false end
  | Err _ => false end = true.
Proof. vm_compute. reflexivity. Qed.

Theorem C40_reproduces_data_exact : forall query (X qs : list rpt) (z : list R) k (p : R) ub t,
  query_ok query -> new_tree (map ofP X) = Ok t -> length z = length X -> qs <> [] -> 2 <= k ->
  exists v, snd (tree_call XRm query t (map ofP qs) (ofR z) k zero (XFin p : XR) (ofU ub)) = Ok v /\ length v = length qs /\
  forall j i, j < length qs -> i < length X ->
    let d := dist_to X (get (0%R, 0%R) qs j) in
    (d i < 1 / 10000000000)%R -> in_range d ub i ->
    exists i0, i0 < length X /\ (forall i', i' < length X -> (d i0 <= d i')%R) /\ get (n_nan : XR) v j = (XFin (rget z i0) : XR).
Proof. exact idw_hit. Qed.
Print Assumptions C40_reproduces_data_exact.

Theorem C40_hit_returns_value : forall (L : libm F64) (z : list F64) p d i row,
  i < length z -> n_ltb d (n_lit 1 10) = true -> idw_one L z p ((d, i) :: row) = nget z i.
Proof. exact (@idw_one_hit F64). Qed.
Print Assumptions C40_hit_returns_value.

Example C40_case :
  match new_tree [(#0, #0); (#4, #0)] with
  | Ok t => match snd (tree_call F64demo brute_query t [(#4, #0); (#0, n_lit 1 11)] [f_div #1 #3; f_div #2 #3] 8 zero #2 None) with
            | Ok v => f_same_list v [f_div #2 #3; f_div #1 #3] | Err _ => false end
  | Err _ => false end = true.
Proof. vm_compute. reflexivity. Qed.

Theorem C41_only_nearest_values_matter_exact : forall query (X qs : list rpt) k ub t,
  query_ok query -> new_tree (map ofP X) = Ok t -> qs <> [] -> 2 <= k ->
  forall j, j < length qs -> exists used,
    is_nearest (dist_to X (get (0%R, 0%R) qs j)) (length X) k ub used /\
    forall (p : XR) (z z' : list XR) v v', length z = length X -> length z' = length X ->
      (forall i, In i used -> nget z i = nget z' i) ->
      snd (tree_call XRm query t (map ofP qs) z k zero p (ofU ub)) = Ok v ->
      snd (tree_call XRm query t (map ofP qs) z' k zero p (ofU ub)) = Ok v' ->
      get (n_nan : XR) v j = get (n_nan : XR) v' j.
Proof. exact idw_uses_nearest. Qed.
Print Assumptions C41_only_nearest_values_matter_exact.

(** with nnear = 2 the third nearest value does not matter *)
Example C41_case :
  match new_tree [(#0, #0); (#8, #0); (#4, #0)] with
  | Ok t => match snd (tree_call F64demo brute_query t [(#1, #0)] [#10; #77; #30] 2 zero #1 None),
                  snd (tree_call F64demo brute_query t [(#1, #0)] [#10; fNaN; #30] 2 zero #1 None) with
            | Ok v, Ok v' => f_same_list v v' && f_same_list v [#15] | _, _ => false end
  | Err _ => false end = true.
Proof. vm_compute. reflexivity. Qed.

Theorem C42_history_with_constant_max_distance : forall (L : libm F64) query, query_respects query -> forall md X t0 l, new_tree X = Ok t0 ->
  tree_history L query md t0 l = map (fun a => snd (call_tree L query md t0 a)) l.
Proof. exact (tree_history_fresh F64sem). Qed.
Print Assumptions C42_history_with_constant_max_distance.

Theorem C42_search_contract_satisfiable : query_respects (brute_query (O := F64)).
Proof. exact brute_respects64. Qed.
Print Assumptions C42_search_contract_satisfiable.

Theorem C42_changed_max_distance_is_ignored : forall (L : libm F64) query, forall X t0 q z k (eps : F64) p md t1 v, new_tree X = Ok t0 -> n_isnan eps = false ->
  tree_call L query t0 q z k eps p md = (t1, Ok v) ->
  forall z' p' md', snd (tree_call L query t1 q z' k eps p' md') = snd (tree_call L query t0 q z' k eps p' md).
Proof. exact (stale_max_distance F64sem). Qed.
Print Assumptions C42_changed_max_distance_is_ignored.

(** so a call is not always what a fresh object returns: the second call asks
    for a reach of 1, a fresh object finds nothing, the used one answers 15 *)
Definition C42_fresh : bool :=
  match new_tree [(#0, #0); (#4, #0)] with
  | Ok t =>
      let '(t1, _) := tree_call F64demo brute_query t [(#1, #0)] [#10; #30] 2 zero #1 None in
      match snd (tree_call F64demo brute_query t1 [(#1, #0)] [#10; #30] 2 zero #1 (Some f_half)),
            snd (tree_call F64demo brute_query t [(#1, #0)] [#10; #30] 2 zero #1 (Some f_half)) with
      | Ok used, Ok fresh => f_same_list used [#15] && f_same_list fresh [fNaN]
      | _, _ => false
      end
  | Err _ => false
  end.
Example C42_case : C42_fresh = true.
Proof. vm_compute. reflexivity. Qed.

Theorem C43_interpolator_history_independent : forall (L : libm F64) query, query_respects query -> forall c l,
  cf_exclude_nan c = true \/ overwrites l = false ->
  interp_history L query (new_interp c) l = map (fun a => snd (call_interp L query (new_interp c) a)) (calls l).
Proof.
  exact (fun L query RQ c l H => interp_history_fresh F64sem L query RQ c l H (new_interp c) (conj eq_refl I)).
Qed.
Print Assumptions C43_interpolator_history_independent.

(** two calls with different missing values: 2 trees; then the first again *)
Definition C43_conf : settings F64 := {| cf_nnear := 2; cf_p := #1; cf_exclude_nan := true; cf_max_distance := None |}.
Definition C43_call (z : list F64) : grid_args :=
  {| g_x := [#0; #4; #8]; g_y := [#0; #0; #0]; g_z := z; g_rows := 1; g_cols := 2; g_xgrid := [[#1; #4]]; g_ygrid := [[#0; #0]] |}.
Example C43_case :
  match interp_history F64demo brute_query (new_interp C43_conf)
     [Call (C43_call [#10; #30; #77]); Call (C43_call [#10; fNaN; #17]); Call (C43_call [#20; #60; fNaN])] with
  | [Ok [a]; Ok [b]; Ok [c]] => f_same_list a [#15; #30] && f_same_list c [#30; #60] && n_ltb (#10 : F64) (get fNaN b 0) && n_ltb (get fNaN b 0 : F64) #17
  | _ => false end = true.
Proof. vm_compute. reflexivity. Qed.

Theorem C44_grid_results : forall (L : libm F64) query c x y z rows cols xg yg,
  length x = length z -> length y = length z -> forallb n_isnan z = false -> 2 <= cf_nnear c ->
  rectangular rows cols xg -> rectangular rows cols yg -> 0 < rows -> 0 < cols ->
  let sel := fun a => if cf_exclude_nan c then present z a else a in
  all_finite (sel x) -> all_finite (sel y) -> all_finite (concat xg) -> all_finite (concat yg) ->
  exists zg, snd (interp_call L query (new_interp c) x y z rows cols xg yg) = Ok zg /\ rectangular rows cols zg /\
  forall i j, i < rows -> j < cols ->
    get n_nan (get [] zg i) j = idw_one L (sel z) (cf_p c)
      (query (combine (sel x) (sel y)) (get n_nan (get [] xg i) j, get n_nan (get [] yg i) j) (cf_nnear c) zero (cf_max_distance c)).
Proof. exact (@interp_result F64). Qed.
Print Assumptions C44_grid_results.

(** otherwise ValueError, with C44_grid_results an exact description of the outcome *)
Theorem C44_invalid_input : forall (L : libm F64) query c x y z rows cols xg yg,
  length x = length z -> length y = length z -> forallb n_isnan z = false ->
  rectangular rows cols xg -> rectangular rows cols yg -> 0 < rows -> 0 < cols ->
  let sel := fun a => if cf_exclude_nan c then present z a else a in
  cf_nnear c < 2 \/ ~ all_finite (sel x) \/ ~ all_finite (sel y) \/ ~ all_finite (concat xg) \/ ~ all_finite (concat yg) ->
  snd (interp_call L query (new_interp c) x y z rows cols xg yg) = Err ValueError.
Proof. exact (@interp_invalid F64). Qed.
Print Assumptions C44_invalid_input.

(** a station without coordinates is harmless while its value is missing *)
Example C44_case_invalid :
  let run := fun x z g => snd (interp_call F64demo brute_query (new_interp C43_conf) x [#0; #0; #0] z 1 1 [[g]] [[#0]]) in
  match run [#0; fNaN; #8] [#10; fNaN; #30] #0, run [#0; fNaN; #8] [#10; #20; #30] #0, run [#0; #4; #8] [#10; fNaN; #30] fNaN with
  | Ok [v], Err ValueError, Err ValueError => f_same_list v [#10] | _, _, _ => false end = true.
Proof. vm_compute. reflexivity. Qed.

Theorem C44_shape : forall (L : libm F64) query s x y z rows cols xg yg zg,
  snd (interp_call L query s x y z rows cols xg yg) = Ok zg -> rectangular rows cols zg.
Proof. exact (@interp_shape F64). Qed.
Print Assumptions C44_shape.

Theorem C44_nan_points_have_no_influence : forall (L : libm F64) query c (s : interp F64) x y z rows cols xg yg,
  conf s = c -> cf_exclude_nan c = true -> forallb n_isnan z = false -> length x = length z -> length y = length z ->
  interp_call L query s x y z rows cols xg yg =
  interp_call L query s (present z x) (present z y) (present z z) rows cols xg yg.
Proof. exact (@interp_exclude_nan F64). Qed.
Print Assumptions C44_nan_points_have_no_influence.

Theorem C44_all_nan : forall (L : libm F64) query (s : interp F64) x y z rows cols xg yg,
  length x = length z -> length y = length z -> (forall v, In v z -> n_isnan v = true) ->
  interp_call L query s x y z rows cols xg yg = (s, Ok (repeat (repeat n_nan cols) rows)).
Proof. exact (@interp_all_nan F64). Qed.
Print Assumptions C44_all_nan.

Theorem C44_unequal_lengths : forall (L : libm F64) query (s : interp F64) x y z rows cols xg yg,
  length x <> length y \/ length y <> length z ->
  interp_call L query s x y z rows cols xg yg = (s, Err AssertionError).
Proof. exact (@interp_lengths F64). Qed.
Print Assumptions C44_unequal_lengths.

(** 2 x 2 grid, one missing value; without NaN exclusion the missing value spreads *)
Example C44_case :
  match snd (interp_call F64demo brute_query (new_interp C43_conf) [#0; #4; #8] [#0; #0; #0] [#10; #30; fNaN] 2 2 [[#1; #4]; [#1; #8]] [[#0; #0]; [#0; #0]]),
        snd (interp_call F64demo brute_query (new_interp {| cf_nnear := 3; cf_p := #1; cf_exclude_nan := false; cf_max_distance := None |})
          [#0; #4; #8] [#0; #0; #0] [#10; #30; fNaN] 1 1 [[#1]] [[#0]]) with
  | Ok [a; b], Ok [c] => f_same_list a [#15; #30] && f_same_list (firstn 1 b) [#15] && f_same_list c [fNaN]
  | _, _ => false end = true.
Proof. vm_compute. reflexivity. Qed.

Theorem C86_overwritten_query_points_stale : forall (L : libm F64) query, forall X t0 q z k (eps : F64) p md t1 v, new_tree X = Ok t0 -> n_isnan eps = false ->
  tree_call L query t0 q z k eps p md = (t1, Ok v) ->
  forall q' z' p' md', forallb finite_pt q' = true ->
  snd (tree_call L query (overwrite_q t1 q') q' z' k eps p' md') = snd (tree_call L query t0 q z' k eps p' md).
Proof. exact (stale_overwrite F64sem). Qed.
Print Assumptions C86_overwritten_query_points_stale.

Theorem C86_overwritten_coordinates_stale : forall (L : libm F64) query, forall c x y z rows cols xg yg s1 v, cf_exclude_nan c = false ->
  forallb n_isnan z = false -> interp_call L query (new_interp c) x y z rows cols xg yg = (s1, Ok v) ->
  forall x' y' z', all_finite x' -> all_finite y' -> length x' = length x -> length y' = length y -> length z' = length z -> forallb n_isnan z' = false ->
  snd (interp_call L query (overwrite_xy s1 x' y') x' y' z' rows cols xg yg) =
  snd (interp_call L query (new_interp c) x y z' rows cols xg yg).
Proof. exact (overwritten_xy F64sem). Qed.
Print Assumptions C86_overwritten_coordinates_stale.

(** the caller moves the second station from 4 to 2 in place: the interpolator
    with exclude_nan=False does not notice, the one with True does *)
Definition C86_run (ex : bool) : list (res (list (list F64))) :=
  interp_history F64demo brute_query (new_interp {| cf_nnear := 2; cf_p := #1; cf_exclude_nan := ex; cf_max_distance := None |})
    [Call {| g_x := [#0; #4]; g_y := [#0; #0]; g_z := [#10; #30]; g_rows := 1; g_cols := 1; g_xgrid := [[#1]]; g_ygrid := [[#0]] |};
     Overwrite [#0; #2] [#0; #0];
     Call {| g_x := [#0; #2]; g_y := [#0; #0]; g_z := [#10; #30]; g_rows := 1; g_cols := 1; g_xgrid := [[#1]]; g_ygrid := [[#0]] |}].
Example C86_case :
  match C86_run false, C86_run true with
  | [Ok [a]; Ok [b]], [Ok [a']; Ok [b']] => f_same_list a [#15] && f_same_list b [#15] && f_same_list a' [#15] && f_same_list b' [#20]
  | _, _ => false end = true.
Proof. vm_compute. reflexivity. Qed.
