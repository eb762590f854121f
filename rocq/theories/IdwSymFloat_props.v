(** * Property C151: inverse distance weighting in binary64 sees only the computed distances *)
From Coq Require Import List ZArith Bool Reals Permutation Lia Lra.
From Flocq Require Import Core IEEE754.BinarySingleNaN.
From Verif Require Import Base Num NumF64 NumList NpOps Libm Libm64 Idw_model Idw_spec IdwSymFloat_spec IdwSymFloat_proofs.
Import ListNotations.
Local Open Scope nat_scope.
Local Notation dflt := (n_nan, n_nan).

(** The values are a function of the pairs (computed squared distance, station value),
    in whatever order the stations are listed - bit by bit, for every power function. *)
Theorem C151_only_computed_distances_matter : forall (L : libm F64) query query' (X X' qs qs' : list place) (z z' : list F64) k (p : F64) (ub : option F64) t t' v v',
  search_ok query -> search_ok query' -> new_tree X = Ok t -> new_tree X' = Ok t' -> length qs = length qs' ->
  (forall u, ub = Some u -> number (n_mul u u)) ->
  (forall j, j < length qs -> let q := get dflt qs j in let q' := get dflt qs' j in
     told_apart q X /\ Permutation (combine (map (sqdist q) X) z) (combine (map (sqdist q') X') z')) ->
  snd (tree_call L query t qs z k zero p ub) = Ok v -> snd (tree_call L query' t' qs' z' k zero p ub) = Ok v' -> v = v'.
Proof. exact only_sqdist. Qed.
Print Assumptions C151_only_computed_distances_matter.

Theorem C151_order_of_stations : forall (L : libm F64) query query' (X X' qs : list place) (z z' : list F64) k (p : F64) ub t t' v v',
  search_ok query -> search_ok query' -> new_tree X = Ok t -> new_tree X' = Ok t' -> Permutation (combine X z) (combine X' z') ->
  (forall u, ub = Some u -> number (n_mul u u)) -> (forall q, In q qs -> told_apart q X) ->
  snd (tree_call L query t qs z k zero p ub) = Ok v -> snd (tree_call L query' t' qs z' k zero p ub) = Ok v' -> v = v'.
Proof. exact other_order. Qed.
Print Assumptions C151_order_of_stations.

(** Mirrored maps and exchanged axes (hence turns by 90 degrees): any coordinates. *)
Theorem C151_reflections : forall (L : libm F64) query query' (X qs : list place) (f : place -> place) (z : list F64) k (p : F64) ub t t' v v',
  In f [mirror_x; mirror_y; exchange] ->
  search_ok query -> search_ok query' -> new_tree X = Ok t -> new_tree (map f X) = Ok t' ->
  (forall u, ub = Some u -> number (n_mul u u)) -> (forall q, In q qs -> told_apart q X) ->
  snd (tree_call L query t qs z k zero p ub) = Ok v -> snd (tree_call L query' t' (map f qs) z k zero p ub) = Ok v' -> v = v'.
Proof.
  intros L query query' X qs f z k p ub t t' v v' HF Q Q' HT HT' Hu HD. apply (moved_places L query query' X qs f); auto.
  intros q x _ _. destruct HF as [<-|[<-|[<-|[]]]]; [apply mirror_x_same|apply mirror_y_same|apply exchange_same].
Qed.
Print Assumptions C151_reflections.

(** Moved maps: coordinates and the move in whole, half, quarter ... units. *)
Theorem C151_moved_map : forall (L : libm F64) query query' (X qs : list place) (q : Z) (cx cy : F64) (z : list F64) k (p : F64) ub t t' v v',
  (0 <= q <= 900)%Z -> on_raster q cx -> on_raster q cy -> (forall a, In a (X ++ qs) -> place_on_raster q a) ->
  search_ok query -> search_ok query' -> new_tree X = Ok t -> new_tree (map (shifted cx cy) X) = Ok t' ->
  (forall u, ub = Some u -> number (n_mul u u)) -> (forall q, In q qs -> told_apart q X) ->
  snd (tree_call L query t qs z k zero p ub) = Ok v -> snd (tree_call L query' t' (map (shifted cx cy) qs) z k zero p ub) = Ok v' -> v = v'.
Proof.
  intros L query query' X qs q cx cy z k p ub t t' v v' Hq CX CY HR Q Q' HT HT' Hu HD. apply (moved_places L query query' X qs (shifted cx cy)); auto.
  intros a x Ha Hx. apply (shifted_same q); auto; apply HR, in_or_app; auto.
Qed.
Print Assumptions C151_moved_map.

(** the search contract can be met *)
Theorem C151_search_contract_satisfiable : search_ok square_search.
Proof. exact square_search_ok. Qed.
Print Assumptions C151_search_contract_satisfiable.

(** three stations, nnear = 2: listed in another order, mirrored, moved by (100, -7) *)
Definition C151_run (X : list place) (z : list F64) (q : place) : list F64 :=
  match new_tree X with Ok t => match snd (tree_call F64demo square_search t [q] z 2 zero #1 (Some #9)) with Ok v => v | Err _ => [] end | Err _ => [] end.
Example C151_case :
  let X := [(#1, #0); (#0, #3); (#5, #2)] in let z := [#10; #70; #30] in
  let v := C151_run X z (#4, #4) in
  f_same_list v (C151_run [(#5, #2); (#1, #0); (#0, #3)] [#30; #10; #70] (#4, #4)) &&
  f_same_list v (C151_run (map mirror_x X) z (#(-4), #4)) && f_same_list v (C151_run (map (shifted #100 #(-7)) X) z (#104, #(-3))) && negb (f_same_list v []) = true.
Proof. vm_compute. reflexivity. Qed.

(** With coordinates in tenths a move by one unit changes the map: the distances to
    two equally far stations come out different, and with nnear = 2 another station
    is used. *)
Local Notation tenth z := (f_div #z #10).
Definition C151_plain : list place := [(tenth 2, #0); (tenth 4, #0); (tenth 3, tenth 1)].
Theorem C151_moved_tenths_refuted : exists (X : list place) (z : list F64) (q : place) t t' v v',
  (forall a, In a (q :: X) -> exists i j : Z, a = (n_div (n_ofZ i) (n_ofZ 10), n_div (n_ofZ j) (n_ofZ 10))) /\
  new_tree X = Ok t /\ new_tree (map (shifted (n_ofZ 1) zero) X) = Ok t' /\
  snd (tree_call F64demo square_search t [q] z 2 zero #1 None) = Ok [v] /\
  snd (tree_call F64demo square_search t' [shifted (n_ofZ 1) zero q] z 2 zero #1 None) = Ok [v'] /\ n_ltb (n_add v (n_ofZ 5)) v' = true.
Proof.
  exists C151_plain, [#0; #12; #24], (tenth 3, #0). do 4 eexists. split; [|split; [reflexivity|split; [reflexivity|split; [reflexivity|split; [reflexivity|]]]]].
  - intros a [<-|[<-|[<-|[<-|[]]]]]; [exists 3%Z, 0%Z|exists 2%Z, 0%Z|exists 4%Z, 0%Z|exists 3%Z, 1%Z]; reflexivity.
  - vm_compute. reflexivity.
Qed.
Print Assumptions C151_moved_tenths_refuted.
