(** * Property C122: rain maps of the notebooks, from raw levels to the grid *)
From Coq Require Import List ZArith Bool Reals String Lia Lra.
From Verif Require Import Base Num NumF64 NumList Libm Libm64 Idw_model Idw_spec Baseline_spec KR_model KR_spec Chain_model Chain_spec BaselineFloat_proofs Chain_props
  Workflow_model Workflow_spec Workflow_props RainMap_model RainMap_spec RainMap_proofs RainMap_proofs2.
Import ListNotations.
Local Open Scope nat_scope.
Local Notation length := List.length.

Definition grid_ok (rows cols : nat) (g : list (list F64)) : Prop := rectangular rows cols g /\ all_finite (List.concat g).

(** both maps exist for every network, and every cell is missing or at least 0 *)
Theorem C122_map_exists :
  forall (L : libm F64) cubic std (q : map_par F64) times query (c : settings F64) links rows cols xg yg,
  pow_sane L -> weights_sane L (cf_p c) -> distances_ok query ->
  1 <= mp_n q -> n_eqb (mp_tau q) (n_ofZ 0) = false -> 2 <= cf_nnear c ->
  (forall k, In k links -> good_link k) -> all_finite (map lk_lon links) -> all_finite (map lk_lat links) ->
  grid_ok rows cols xg -> grid_ok rows cols yg -> 0 < rows -> 0 < cols ->
  (exists g, rain_map L query (link_total L cubic std q times) c links rows cols xg yg = Ok g /\
     rectangular rows cols g /\ forall row v, In row g -> In v row -> missing v \/ nonneg v) /\
  (forall i, exists g, rain_map L query (link_hour L cubic std q times i) c links rows cols xg yg = Ok g /\
     rectangular rows cols g /\ forall row v, In row g -> In v row -> missing v \/ nonneg v).
Proof.
  intros L cubic std q times query c links rows cols xg yg sane HW HQ Hn Ht Hk HG Fx Fy [RX FX] [RY FY] Hr Hc. split.
  - apply (map_total F64sem L std q times query); auto. intros k Gk.
    destruct (link_total_ok F64sem L cubic std q times sane Hn Ht k Gk) as (v & E & R & M). exists v. split; auto. split; auto. apply M.
  - intros i. apply (map_total F64sem L std q times query); auto. intros k Gk.
    exact (link_hour_ok F64sem L cubic std q times sane Hn Ht i k Gk).
Qed.
Print Assumptions C122_map_exists.

(** the assumptions about pow and the search can be met *)
Theorem C122_assumptions_satisfiable : (forall p, weights_sane F64cr p) /\ distances_ok (brute_query (O := F64)).
Proof. exact (conj weights_sane_cr brute_distances). Qed.
Print Assumptions C122_assumptions_satisfiable.

(** two hours of four steps *)
Definition demo_map (limit : F64) : map_par F64 := mk_map_par demo_raw 1 (#2) (#1) (#6) limit [0; 0; 0; 0; 1; 1; 1; 1] 2.
Definition demo_conf : settings F64 := {| cf_nnear := 2; cf_p := #1; cf_exclude_nan := true; cf_max_distance := None |}.
Definition rainy : list F64 := [#40; #40; #(-99); #40; #30; #30; #40; #40].
Definition dry : list F64 := repeat (#40) 8.
Definition dead : list F64 := repeat (#(-99)) 8.
Definition station (x : Z) (rsl : list F64) (others : list (list F64)) : link F64 :=
  mk_link (repeat (#50) 8) rsl (map (fun r => (repeat (#50) 8, r)) others) (#x) (#0) demo_args.
Definition total_map (limit : F64) (links : list (link F64)) : res (list (list F64)) :=
  rain_map F64demo brute_query (link_total F64demo no_cubic demo_std (demo_map limit) (hours 8)) demo_conf links 1 3 [[#0; #2; #4]] [[#0; #0; #0]].
Definition hour_map (limit : F64) (i : nat) (links : list (link F64)) : res (list (list F64)) :=
  rain_map F64demo brute_query (link_hour F64demo no_cubic demo_std (demo_map limit) (hours 8) i) demo_conf links 1 3 [[#0; #2; #4]] [[#0; #0; #0]].
Definition is_row (g : res (list (list F64))) (row : list F64) : bool := match g with Ok [r] => f_same_list r row | _ => false end.

Example C122_case : (* (81 + 289/4) / 4 mm in the second hour *)
  is_row (total_map (#1) [station 0 rainy []; station 4 dry []]) [f_div (#613) (#16); f_div (#613) (#32); #0] &&
  is_row (hour_map (#1) 0 [station 0 rainy []; station 4 dry []]) [#0; #0; #0] &&
  is_row (hour_map (#1) 1 [station 0 rainy []; station 4 dry []]) [f_div (#613) (#16); f_div (#613) (#32); #0] = true.
Proof. vm_compute. reflexivity. Qed.

(** With [exclude_nan] the map is the map of the links whose wet fraction is
    below the limit: the others have no influence. *)
Theorem C122_unreliable_links_left_out :
  forall (L : libm F64) cubic std (q : map_par F64) times query (c : settings F64) links rows cols xg yg,
  pow_sane L -> 1 <= mp_n q -> n_eqb (mp_tau q) (n_ofZ 0) = false -> cf_exclude_nan c = true ->
  (forall k, In k links -> good_link k) ->
  let used := filter (reliable std q times) links in
  rain_map L query (link_total L cubic std q times) c links rows cols xg yg =
  rain_map L query (link_total L cubic std q times) c used rows cols xg yg /\
  forall i, rain_map L query (link_hour L cubic std q times i) c links rows cols xg yg =
            rain_map L query (link_hour L cubic std q times i) c used rows cols xg yg.
Proof.
  intros L cubic std q times query c links rows cols xg yg sane Hn Ht HE HG used. split.
  - apply (unreliable_left_out L std q times query); auto. intros k Gk.
    destruct (link_total_ok F64sem L cubic std q times sane Hn Ht k Gk) as (v & E & R & M). exists v. split; auto. split; auto. apply M.
  - intros i. apply (unreliable_left_out L std q times query); auto. intros k Gk.
    exact (link_hour_ok F64sem L cubic std q times sane Hn Ht i k Gk).
Qed.
Print Assumptions C122_unreliable_links_left_out.

Example C122_case_unreliable : (* 4 of 8 steps of the first link are wet *)
  is_row (total_map (f_half) [station 0 rainy []; station 4 dry []; station 6 dry []]) [#0; #0; #0] &&
  is_row (total_map (f_half) [station 0 rainy []]) [fNaN; fNaN; fNaN] = true.
Proof. vm_compute. reflexivity. Qed.

(** the wet fraction of the workflow notebook adds up the fractions of all channels *)
Theorem C122_fractions_add_exact : forall steps (a : list XR) (rest : list (list XR)), 0 < steps ->
  wet_fraction steps (a :: rest) = n_add (wet_fraction steps [a]) (wet_fraction steps rest).
Proof. exact fraction_adds. Qed.
Print Assumptions C122_fractions_add_exact.

Lemma demo_plain : plain_coefficients demo_args.
Proof.
  exists (#1), f_half. split; [reflexivity|]. split; [reflexivity|]. split; [reflexivity|]. split; [reflexivity|].
  unfold positive, finite. split; [vm_compute; reflexivity|]. split; [split; vm_compute; reflexivity|]. split; vm_compute; reflexivity.
Qed.

(** So a link can be left out although each of its channels is wet in a smaller
    part of the time than the limit, and it is in the map if only one of these
    channels is counted. *)
Theorem C122_channels_refuted : exists (q : map_par F64) times (k : link F64),
  (forall ch, In ch (wet_channels demo_std q times k) -> n_ltb (wet_fraction (length (lk_tsl k)) [ch]) (mp_limit q) = true) /\
  good_link k /\ reliable demo_std q times k = false /\
  reliable demo_std q times (mk_link (lk_tsl k) (lk_rsl k) [] (lk_lon k) (lk_lat k) (lk_kr k)) = true.
Proof.
  exists (demo_map (f_div (#3) (#4))), (hours 8), (station 0 rainy [rainy]).
  split; [|split; [|split; vm_compute; reflexivity]].
  - apply forallb_forall. vm_compute. reflexivity.
  - split; [|split; [apply demo_plain|cbn; lia]]. split; [reflexivity|]. intros t Ht.
    assert (B : forallb (fun t => negb (n_isinf (get n_nan (lk_tsl (station 0 rainy [rainy])) t)) && negb (n_isinf (get n_nan (lk_rsl (station 0 rainy [rainy])) t)))
      (seq 0 8) = true) by (vm_compute; reflexivity).
    rewrite forallb_forall in B. specialize (B t). rewrite andb_true_iff, !negb_true_iff in B. apply B. apply in_seq. split; [lia|exact Ht].
Qed.
Print Assumptions C122_channels_refuted.

(** A link that measured nothing at all counts as 0 mm in the map of totals,
    although it is missing in every hourly map. *)
Theorem C122_silent_link : forall (L : libm F64) cubic std (q : map_par F64) times (k : link F64),
  pow_sane L -> 1 <= mp_n q -> n_eqb (mp_tau q) (n_ofZ 0) = false -> good_link k ->
  1 <= rp_window (mp_raw q) -> 1 <= length (lk_tsl k) -> positive (mp_limit q) ->
  (forall c, In c ((lk_tsl k, lk_rsl k) :: lk_others k) -> silent (mp_raw q) c) ->
  link_total L cubic std q times k = Ok (n_ofZ 0) /\
  forall i, exists v, link_hour L cubic std q times i k = Ok v /\ missing v.
Proof.
  intros L cubic std q times k sane Hn Ht. exact (silent_link F64sem L cubic std q times sane Hn Ht k).
Qed.
Print Assumptions C122_silent_link.

Example C122_case_silent : (* a dead link next to the rain halves the total between them, the hourly map ignores it *)
  is_row (total_map (#1) [station 0 rainy []; station 4 dead []]) [f_div (#613) (#16); f_div (#613) (#32); #0] &&
  is_row (hour_map (#1) 1 [station 0 rainy []; station 4 dead []; station 8 rainy []]) [f_div (#613) (#16); f_div (#613) (#16); f_div (#613) (#16)] = true.
Proof. vm_compute. reflexivity. Qed.

(** More rain at the stations never lowers a cell of the map. *)
Theorem C122_more_rain_more_map :
  forall (L : libm F64) query (value value' : link F64 -> res F64) (c : settings F64) links rows cols xg yg g g',
  weights_sane L (cf_p c) -> distances_ok query ->
  (forall k, In k links -> exists v v', value k = Ok v /\ value' k = Ok v' /\ (missing v <-> missing v') /\ le_or_missing v v') ->
  rain_map L query value c links rows cols xg yg = Ok g -> rain_map L query value' c links rows cols xg yg = Ok g' ->
  forall i j, i < rows -> j < cols -> le_or_missing (get n_nan (get [] g i) j) (get n_nan (get [] g' i) j).
Proof.
  intros L query value value' c links rows cols xg yg g g' HW HQ HV E E' i j Hi Hj.
  destruct (all_links_rel value value' links HV) as (z & z' & EZ & EZ' & LZ & HZ).
  unfold rain_map in E, E'. rewrite EZ in E. rewrite EZ' in E'. cbn [bind] in E, E'.
  destruct (cells_mono F64sem L query c _ _ z z' rows cols xg yg g g' HW HQ LZ HZ E E' i j Hi Hj) as [K|[K|K]]; unfold le_or_missing, missing; auto.
Qed.
Print Assumptions C122_more_rain_more_map.

Example C122_case_more : (* one hour against the sum of both *)
  is_row (hour_map (#1) 1 [station 0 rainy []; station 3 rainy []]) (repeat (f_div (#613) (#16)) 3) &&
  is_row (hour_map (#1) 0 [station 0 rainy []; station 3 rainy []]) (repeat (#0) 3) = true.
Proof. vm_compute. reflexivity. Qed.
