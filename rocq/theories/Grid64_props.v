(** * Property C106: generated grids in binary64 *)
From Coq Require Import List ZArith Bool Reals Lia.
From Verif Require Import Base Num NumF64 Grid_spec Grid64_model Grid64_spec Grid64_proofs.
Import ListNotations.
Local Open Scope nat_scope.

(** Integer coordinates and resolution (metres): the grid covers the stations
    exactly as in C45. *)
Theorem C106_integer_coordinates : forall (x y : list Z) (r : Z) xg yg, xg = None \/ yg = None -> x <> [] -> y <> [] ->
  (forall v, In v (x ++ y) -> (Z.abs v <= 2 ^ 50)%Z) -> (0 < r <= 2 ^ 50)%Z ->
  exists g xc yc zx zy, parse_grid_kwargs (map n_ofZ x) (map n_ofZ y) xg yg (Some (n_ofZ r)) = Ok g /\ product_grid xc yc g /\
    values xc zx /\ values yc zy /\ covers (map IZR x) (IZR r) zx /\ covers (map IZR y) (IZR r) zy.
Proof. exact integer_grid. Qed.
Print Assumptions C106_integer_coordinates.

Example C106_case_integers :
  match parse_grid_kwargs [#0; #10] [#5; #5] None None (Some #3) with
  | Ok ([xc; xc'], [a; b]) => f_same_list xc [#(-3); #0; #3; #6; #9; #12] && f_same_list xc' xc && f_same_list a (repeat #2 6) && f_same_list b (repeat #5 6)
  | _ => false end = true.
Proof. vm_compute. reflexivity. Qed.

(** Other coordinates: the greatest coordinate of the stations can lie beyond
    the last grid coordinate, and the spacing is not the resolution.
    Longitudes 10 and 11, resolution 0.1: the grid ends before 11. *)
Theorem C106_grid_covers_stations_refuted : exists (x : list F64) (r : F64) xc yc hi,
  parse_grid_kwargs x x None None (Some r) = Ok (meshgrid xc yc) /\ n_ltb (n_ofZ 0) r = true /\ In hi x /\
  (forall c, In c xc -> n_ltb c hi = true) /\ n_eqb (n_sub (get n_nan xc 1) (get n_nan xc 0)) r = false.
Proof. exact grid_ends_early. Qed.
Print Assumptions C106_grid_covers_stations_refuted.

(** What holds in general: the coordinates start at min - resolution and never
    decrease. *)
Theorem C106_coordinates_never_decrease : forall (x y : list F64) xg yg r g lo hi lo' hi' s s' rr,
  xg = None \/ yg = None -> parse_grid_kwargs x y xg yg (Some r) = Ok g ->
  list_min x = Ok lo -> list_max x = Ok hi -> list_min y = Ok lo' -> list_max y = Ok hi' ->
  f_val (n_sub lo r) = XFin s -> f_val (n_sub lo' r) = XFin s' -> f_val r = XFin rr -> (0 < rr)%R ->
  exists xc yc, product_grid xc yc g /\
    (xc <> [] -> get n_nan xc 0 = n_sub lo r) /\ (yc <> [] -> get n_nan yc 0 = n_sub lo' r) /\
    (forall i j, i < j -> j < length xc -> n_leb (get n_nan xc i) (get n_nan xc j) = true) /\
    (forall i j, i < j -> j < length yc -> n_leb (get n_nan yc i) (get n_nan yc j) = true).
Proof. exact grid_never_decreases. Qed.
Print Assumptions C106_coordinates_never_decrease.

Example C106_case_decimal :
  match parse_grid_kwargs [#10; #11] [#10; #11] None None (Some (f_div #1 #10)) with
  | Ok (xg :: _, _) => Nat.eqb (length xg) 12 && f_same (get fNaN xg 0) (f_sub #10 (f_div #1 #10)) && n_ltb (get fNaN xg 11) #11 && n_ltb (get fNaN xg 10) (get fNaN xg 11)
  | _ => false end = true.
Proof. vm_compute. reflexivity. Qed.

(** A missing coordinate raises if it is the first one and is ignored otherwise. *)
Theorem C106_missing_first_coordinate : forall x0 (x y : list F64) xg yg r, xg = None \/ yg = None -> n_isnan x0 = true ->
  parse_grid_kwargs (x0 :: x) y xg yg (Some r) = Err ValueError.
Proof. exact nan_first. Qed.
Print Assumptions C106_missing_first_coordinate.

Theorem C106_later_missing_coordinates_ignored : forall (x y : list F64) xg yg r, n_isnan (get n_nan x 0) = false -> n_isnan (get n_nan y 0) = false ->
  parse_grid_kwargs x y xg yg r = parse_grid_kwargs (filter (fun v => negb (n_isnan v)) x) (filter (fun v => negb (n_isnan v)) y) xg yg r.
Proof. exact nan_later. Qed.
Print Assumptions C106_later_missing_coordinates_ignored.

Example C106_case_missing :
  match parse_grid_kwargs [fNaN; #10] [#5; #5] None None (Some #3), parse_grid_kwargs [#0; fNaN; #10] [#5; #5; fNaN] None None (Some #3) with
  | Err ValueError, Ok (xc :: _, _) => f_same_list xc [#(-3); #0; #3; #6; #9; #12] | _, _ => false end = true.
Proof. vm_compute. reflexivity. Qed.

(** No stations, or a resolution of zero: ValueError.  (Numpy scalars divide by
    zero without raising; the length of the grid is then not finite.) *)
Theorem C106_no_stations : forall (x y : list F64) xg yg r, xg = None \/ yg = None -> x = [] \/ f_val r = XFin 0 -> parse_grid_kwargs x y xg yg (Some r) = Err ValueError.
Proof. exact no_stations. Qed.
Print Assumptions C106_no_stations.

Example C106_case_no_stations :
  match parse_grid_kwargs [#1] [#2] None None (Some #0), parse_grid_kwargs [] [#2] (Some []) None (Some #1), parse_grid_kwargs [#1] [] None None (Some #1) with
  | Err ValueError, Err ValueError, Err ValueError => true | _, _, _ => false end = true.
Proof. vm_compute. reflexivity. Qed.

(** The same without ordinates, and without a resolution. *)
Theorem C106_no_ordinates : forall (x : list F64) xg yg r xc, xg = None \/ yg = None ->
  (do a <- list_min x; do b <- list_max x; arange (n_sub a r) (n_add b r) r) = Ok xc -> parse_grid_kwargs x [] xg yg (Some r) = Err ValueError.
Proof.
  intros x xg yg r xc H E. unfold parse_grid_kwargs.
  assert (G : (do xmin <- list_min x; do xmax <- list_max x; do xc0 <- arange (n_sub xmin r) (n_add xmax r) r; do ymin <- list_min []; do ymax <- list_max []; do yc <- arange (n_sub ymin r) (n_add ymax r) r; Ok (meshgrid xc0 yc)) = Err ValueError).
  { destruct (list_min x) as [a|]; cbn [bind] in *; [|discriminate]. destruct (list_max x) as [b|]; cbn [bind] in *; [|discriminate]. rewrite E. reflexivity. }
  destruct H as [->| ->]; [|destruct xg]; exact G.
Qed.
Print Assumptions C106_no_ordinates.

Theorem C106_resolution_required : forall (x y : list F64) xg yg, xg = None \/ yg = None -> parse_grid_kwargs x y xg yg None = Err ValueError.
Proof. intros x y xg yg [->| ->]; [|destruct xg]; reflexivity. Qed.
Print Assumptions C106_resolution_required.
