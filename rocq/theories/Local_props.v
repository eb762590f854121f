(** * Property C105: the nearby-link classification is local and independent of the order of the links *)
From Coq Require Import List ZArith Bool Permutation.
From Verif Require Import Base Num NumF64 NumList NearbyWetdry_model NearbyWetdry_spec NearbyWetdry_props Local_spec Local_proofs.
Import ListNotations.
Local Open Scope nat_scope.

(** Two networks, possibly of different size; only the link's own data and the
    data of its neighbours (in any order) have to agree. *)
Theorem C105_only_neighbours_matter : forall T (pmin : list (list F64)) lens d radius pmin' lens' d' radius' thrP thrPL ml interval tp mh i i',
  call_ok T pmin lens d radius interval tp mh -> call_ok T pmin' lens' d' radius' interval tp mh ->
  i < length pmin -> i' < length pmin' ->
  (forall j, j < length pmin -> n_eqb (get n_nan lens j) (n_ofZ 0) = false) ->
  same_surroundings pmin lens d radius i pmin' lens' d' radius' i' ->
  exists wet F wet' F',
    nearby_wetdry T pmin lens d radius thrP thrPL ml interval tp mh = Ok (wet, F) /\
    nearby_wetdry T pmin' lens' d' radius' thrP thrPL ml interval tp mh = Ok (wet', F') /\
    length (get [] wet i) = T /\ length (get [] F i) = T /\ length (get [] F' i') = T /\
    get [] wet i = get [] wet' i' /\
    forall t, t < T -> same_number (cell F i t) (cell F' i' t).
Proof. exact (local_classification F64sem). Qed.
Print Assumptions C105_only_neighbours_matter.

Theorem C105_order_of_links : forall p T (pmin : list (list F64)) lens d radius thrP thrPL ml interval tp mh,
  call_ok T pmin lens d radius interval tp mh -> Permutation p (seq 0 (length pmin)) ->
  (forall j, j < length pmin -> n_eqb (get n_nan lens j) (n_ofZ 0) = false) ->
  exists wet F wet' F',
    nearby_wetdry T pmin lens d radius thrP thrPL ml interval tp mh = Ok (wet, F) /\
    nearby_wetdry T (reorder [] p pmin) (reorder n_nan p lens) (reorder_distances p d) radius thrP thrPL ml interval tp mh = Ok (wet', F') /\
    wet' = reorder [] p wet /\
    length F' = length F /\ forall k t, k < length pmin -> t < T -> same_number (cell F' k t) (cell F (get 0 p k) t).
Proof. exact (order_of_links F64sem). Qed.
Print Assumptions C105_order_of_links.

(** The demo network of C33, then with a distant third link, then with the
    three links in the order 2, 0, 1; the third link has too few neighbours. *)
Definition far_dist : distances F64 :=
  let z := [[#0; #0; #90]; [#0; #0; #90]; [#90; #90; #0]] in Build_distances z z z z.
Definition demo_levels : list (list F64) :=
  [[#(-50); #(-50); #(-50); #(-50); #(-60); #(-50); #(-50); #(-50)]; [fNaN; #(-50); #(-50); #(-50); #(-58); #(-50); #(-50); #(-50)];
   [#(-30); #(-80); #(-30); #(-80); #(-30); #(-80); #(-30); #(-80)]].

Example C105_case :
  let run := fun pmin lens d => nearby_wetdry 8 pmin lens d #15 thr_P thr_PL 1 60 2 1 in
  let p := [2; 0; 1] in
  match run (firstn 2 demo_levels) [#5; #5] (demo_dist 2), run demo_levels [#5; #5; #9] far_dist,
        run (reorder [] p demo_levels) (reorder fNaN p [#5; #5; #9]) (reorder_distances p far_dist) with
  | Ok (w, F), Ok (w', F'), Ok (w'', F'') =>
      f_same_list (get [] w 0) [fNaN; #0; #1; #1; #1; #1; #1; #1] && f_same_list (get [] w' 0) (get [] w 0) && f_same_list (get [] w' 1) (get [] w 1) &&
      f_same_list (get [] w' 2) (repeat fNaN 8) && f_same_list (get [] w'' 0) (repeat fNaN 8) && f_same_list (get [] w'' 1) (get [] w 0) &&
      f_same_list (get [] F' 1) (get [] F 1) && f_same_list (get [] F'' 2) (get [] F 1)
  | _, _, _ => false end = true.
Proof. vm_compute. reflexivity. Qed.

(** the hypothesis on the neighbours holds for the first link of the two networks *)
Example C105_case_surroundings :
  same_surroundings (firstn 2 demo_levels) [#5; #5] (demo_dist 2) #15 0 demo_levels [#5; #5; #9] far_dist #15 0.
Proof.
  split; [reflexivity|].
  assert (E : neighbours (demo_dist 2) #15 (length (firstn 2 demo_levels)) 0 = [0; 1]) by (vm_compute; reflexivity).
  assert (E' : neighbours far_dist #15 (length demo_levels) 0 = [0; 1]) by (vm_compute; reflexivity).
  rewrite E, E'. apply Permutation_refl.
Qed.
