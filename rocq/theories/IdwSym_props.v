(** * Properties C109 and C110: symmetries and linearity of inverse distance weighting *)
From Coq Require Import List ZArith Bool Reals Lra Lia Permutation.
From Verif Require Import Base Num NumF64 NumList Libm Libm64 RealSpec RealStat Idw_model Idw_spec Idw_proofs IdwSym_proofs.
Import ListNotations.
Local Open Scope nat_scope.

(** ** C109 *)
Theorem C109_only_distances_matter_exact : forall query query' (X X' qs qs' : list rpt) (z z' : list R) k (p : R) ub t t' v v',
  query_ok query -> query_ok query' -> new_tree (map ofP X) = Ok t -> new_tree (map ofP X') = Ok t' ->
  length z = length X -> length z' = length X' -> qs <> [] -> length qs = length qs' -> 2 <= k ->
  (forall j, j < length qs -> let q := get (0%R, 0%R) qs j in let q' := get (0%R, 0%R) qs' j in
     NoDup (map (rdist q) X) /\ Permutation (combine (map (rdist q) X) z) (combine (map (rdist q') X') z')) ->
  snd (tree_call XRm query t (map ofP qs) (ofR z) k zero (XFin p : XR) (ofU ub)) = Ok v ->
  snd (tree_call XRm query' t' (map ofP qs') (ofR z') k zero (XFin p : XR) (ofU ub)) = Ok v' -> v = v'.
Proof. exact idw_only_distances. Qed.
Print Assumptions C109_only_distances_matter_exact.

(** translations, rotations, reflections *)
Theorem C109_moved_network_exact : forall query query' (X qs : list rpt) (f : rpt -> rpt) (z : list R) k (p : R) ub t t' v v',
  query_ok query -> query_ok query' -> new_tree (map ofP X) = Ok t -> new_tree (map ofP (map f X)) = Ok t' ->
  (forall a b, rdist (f a) (f b) = rdist a b) ->
  length z = length X -> qs <> [] -> 2 <= k -> (forall q, In q qs -> NoDup (map (rdist q) X)) ->
  snd (tree_call XRm query t (map ofP qs) (ofR z) k zero (XFin p : XR) (ofU ub)) = Ok v ->
  snd (tree_call XRm query' t' (map ofP (map f qs)) (ofR z) k zero (XFin p : XR) (ofU ub)) = Ok v' -> v = v'.
Proof. exact idw_moved. Qed.
Print Assumptions C109_moved_network_exact.

Theorem C109_order_of_stations_exact : forall query query' (X X' qs : list rpt) (z z' : list R) k (p : R) ub t t' v v',
  query_ok query -> query_ok query' -> new_tree (map ofP X) = Ok t -> new_tree (map ofP X') = Ok t' ->
  Permutation (combine X z) (combine X' z') ->
  length z = length X -> length z' = length X' -> qs <> [] -> 2 <= k -> (forall q, In q qs -> NoDup (map (rdist q) X)) ->
  snd (tree_call XRm query t (map ofP qs) (ofR z) k zero (XFin p : XR) (ofU ub)) = Ok v ->
  snd (tree_call XRm query' t' (map ofP qs) (ofR z') k zero (XFin p : XR) (ofU ub)) = Ok v' -> v = v'.
Proof. exact idw_station_order. Qed.
Print Assumptions C109_order_of_stations_exact.

(** the hypothesis of different distances is needed: with nnear = 2 and two
    stations equally far in second place, the order decides which one is used *)
Theorem C109_ties_depend_on_the_order_refuted : exists (X X' : list (F64 * F64)) (z z' : list F64) t t' v v',
  Permutation (combine X z) (combine X' z') /\ new_tree X = Ok t /\ new_tree X' = Ok t' /\
  snd (tree_call F64demo brute_query t [(#0, #0)] z 2 zero #1 None) = Ok [v] /\
  snd (tree_call F64demo brute_query t' [(#0, #0)] z' 2 zero #1 None) = Ok [v'] /\ n_ltb v v' = true.
Proof.
  exists [(#1, #0); (#0, #2); (#2, #0)], [(#1, #0); (#2, #0); (#0, #2)], [#0; #12; #24], [#0; #24; #12].
  do 4 eexists. split; [cbn [combine]; apply perm_skip, perm_swap|]. split; [reflexivity|]. split; [reflexivity|].
  split; [reflexivity|]. split; [reflexivity|]. vm_compute. reflexivity.
Qed.
Print Assumptions C109_ties_depend_on_the_order_refuted.

(** other unit for the coordinates and max_distance, no station within 1e-10 *)
Theorem C109_unit_of_coordinates_exact : forall query query' (X qs : list rpt) (z : list R) c k (p : R) ub t t' v v',
  let s := fun a : rpt => (c * fst a, c * snd a)%R in
  query_ok query -> query_ok query' -> (0 < c)%R ->
  new_tree (map ofP X) = Ok t -> new_tree (map ofP (map s X)) = Ok t' ->
  length z = length X -> qs <> [] -> 2 <= k ->
  (forall q, In q qs -> NoDup (map (rdist q) X) /\ forall x, In x X -> 1 / 10000000000 <= rdist q x /\ 1 / 10000000000 <= c * rdist q x)%R ->
  snd (tree_call XRm query t (map ofP qs) (ofR z) k zero (XFin p : XR) (ofU ub)) = Ok v ->
  snd (tree_call XRm query' t' (map ofP (map s qs)) (ofR z) k zero (XFin p : XR) (ofU (option_map (Rmult c) ub))) = Ok v' -> v = v'.
Proof. exact idw_coordinate_unit. Qed.
Print Assumptions C109_unit_of_coordinates_exact.

(** 10 m/20 m against cm; the same network shifted and mirrored; 1/3 and 2/3 weights *)
Definition C109_run (X : list (F64 * F64)) (q : F64 * F64) (z : list F64) (md : F64) : list F64 :=
  match new_tree X with Ok t => match snd (tree_call F64demo brute_query t [q] z 8 zero #1 (Some md)) with Ok v => v | Err _ => [] end | Err _ => [] end.
Example C109_case :
  f_same_list (C109_run [(#10, #0); (#0, #20); (#99, #0)] (#0, #0) [#30; #60; #7] #50) [#40] &&
  f_same_list (C109_run [(#99, #0); (#0, #20); (#10, #0)] (#0, #0) [#7; #60; #30] #50) [#40] &&
  f_same_list (C109_run [(#5, #10); (#25, #0); (#5, #99)] (#5, #0) [#30; #60; #7] #50) [#40] &&
  f_same_list (C109_run [(#1000, #0); (#0, #2000); (#9900, #0)] (#0, #0) [#30; #60; #7] #5000) [#40] = true.
Proof. vm_compute. reflexivity. Qed.

(** ** C110: the interpolated value is a linear and monotone function of the station values *)
Theorem C110_linear_and_monotone_exact : forall query (X qs : list rpt) k (p : R) ub t,
  query_ok query -> new_tree (map ofP X) = Ok t -> qs <> [] -> 2 <= k ->
  (forall (a b : R) z1 z2 v1 v2, length z1 = length X -> length z2 = length X ->
   snd (tree_call XRm query t (map ofP qs) (ofR z1) k zero (XFin p : XR) (ofU ub)) = Ok v1 ->
   snd (tree_call XRm query t (map ofP qs) (ofR z2) k zero (XFin p : XR) (ofU ub)) = Ok v2 ->
   snd (tree_call XRm query t (map ofP qs) (ofR (map2 (fun x y => a * x + b * y)%R z1 z2)) k zero (XFin p : XR) (ofU ub)) =
   Ok (map2 (fun x y : XR => n_add (n_mul (XFin a : XR) x) (n_mul (XFin b : XR) y)) v1 v2)) /\
  (forall (a b : R) z v, length z = length X ->
   snd (tree_call XRm query t (map ofP qs) (ofR z) k zero (XFin p : XR) (ofU ub)) = Ok v ->
   snd (tree_call XRm query t (map ofP qs) (ofR (map (fun x => a * x + b)%R z)) k zero (XFin p : XR) (ofU ub)) =
   Ok (map (fun x : XR => n_add (n_mul (XFin a : XR) x) (XFin b : XR)) v)) /\
  (forall z z' v v', length z = length X -> length z' = length X -> (forall i, i < length X -> (rget z i <= rget z' i)%R) ->
   snd (tree_call XRm query t (map ofP qs) (ofR z) k zero (XFin p : XR) (ofU ub)) = Ok v ->
   snd (tree_call XRm query t (map ofP qs) (ofR z') k zero (XFin p : XR) (ofU ub)) = Ok v' ->
   forall j, j < length qs -> let x := get (n_nan : XR) v j in let x' := get (n_nan : XR) v' j in
   (x = n_nan /\ x' = n_nan) \/ n_leb x x' = true).
Proof. exact idw_values. Qed.
Print Assumptions C110_linear_and_monotone_exact.

(** values (30, 60) and (0, 9): 40 and 3; 2 * first + 1 * second: 83; first + 5: 45 *)
Example C110_case :
  let run := fun a b => C109_run [(#10, #0); (#0, #20); (#99, #0)] (#0, #0) [a; b; fNaN] #50 in
  f_same_list (run #30 #60) [#40] && f_same_list (run #0 #9) [#3] && f_same_list (run #60 #129) [#83] && f_same_list (run #35 #65) [#45] = true.
Proof. vm_compute. reflexivity. Qed.
