(** * Property C120: neighbours of links *)
From Coq Require Import List ZArith Bool Reals Lra Lia Arith String.
From Verif Require Import Base Num NumF64 NumList Libm Libm64 RealSpec Haversine_model
  NearbyWetdry_model NearbyWetdry_spec NearbyWetdry_proofs NearbyChain_model LinkEnds_spec LinkEnds_proofs.
Import ListNotations.
Local Notation length := List.length.
Local Open Scope nat_scope.

(** exchanging the ends of any of the links leaves the neighbours as they are *)
Theorem C120_ends_do_not_matter : forall (L : libm F64) n lata lona latb lonb lata' lona' latb' lonb' radius,
  length lata = n -> length lona = n -> length latb = n -> length lonb = n ->
  length lata' = n -> length lona' = n -> length latb' = n -> length lonb' = n ->
  same_links n lata lona latb lonb lata' lona' latb' lonb' ->
  within_r (calc_distance_between_cml_endpoints L n lata' lona' latb' lonb') radius =
  within_r (calc_distance_between_cml_endpoints L n lata lona latb lonb) radius.
Proof. exact (@ends_do_not_matter F64). Qed.
Print Assumptions C120_ends_do_not_matter.

(** and so the classification and the rain rates *)
Theorem C120_classification_and_rain : forall (L : libm F64) cubic n lata lona latb lonb lata' lona' latb' lonb'
  (p : nearby_par F64) len freq pol T pmin pmax,
  length lata = n -> length lona = n -> length latb = n -> length lonb = n ->
  length lata' = n -> length lona' = n -> length latb' = n -> length lonb' = n ->
  same_links n lata lona latb lonb lata' lona' latb' lonb' ->
  let d := calc_distance_between_cml_endpoints L n lata lona latb lonb in
  let d' := calc_distance_between_cml_endpoints L n lata' lona' latb' lonb' in
  nearby_wetdry T pmin len d' (np_radius p) (np_thr_P p) (np_thr_PL p) (np_min_links p) (np_interval p) (np_timeperiod p) (np_min_hours p) =
  nearby_wetdry T pmin len d (np_radius p) (np_thr_P p) (np_thr_PL p) (np_min_links p) (np_interval p) (np_timeperiod p) (np_min_hours p) /\
  nearby_chain L cubic p (mk_network len freq pol d') T pmin pmax = nearby_chain L cubic p (mk_network len freq pol d) T pmin pmax.
Proof.
  intros L cubic n lata lona latb lonb lata' lona' latb' lonb' p len freq pol T pmin pmax H1 H2 H3 H4 H5 H6 H7 H8 HS d d'.
  pose proof (wetdry_within T pmin len d' d (np_radius p) (np_thr_P p) (np_thr_PL p) (np_min_links p) (np_interval p) (np_timeperiod p) (np_min_hours p)
    (ends_do_not_matter L n lata lona latb lonb lata' lona' latb' lonb' (np_radius p) H1 H2 H3 H4 H5 H6 H7 H8 HS)) as E.
  split; [exact E|]. unfold nearby_chain. cbn [nw_len nw_freq nw_pol nw_dist]. rewrite E. reflexivity.
Qed.
Print Assumptions C120_classification_and_rain.

(** a larger radius loses no neighbour *)
Theorem C120_larger_radius : forall (L : libm F64) n lata lona latb lonb (r r' : F64) i j,
  length lata = n -> length lona = n -> length latb = n -> length lonb = n -> i < n -> j < n -> n_leb r r' = true ->
  let w := within_r (calc_distance_between_cml_endpoints L n lata lona latb lonb) in
  get false (get [] (w r) i) j = true -> get false (get [] (w r') i) j = true.
Proof.
  intros L n lata lona latb lonb r r' i j H1 H2 H3 H4 Hi Hj Hr w.
  exact (radius_mono F64sem _ r r' n i j (dist_square L n lata lona latb lonb H1 H2 H3 H4) Hi Hj Hr).
Qed.
Print Assumptions C120_larger_radius.

(** a link with a missing coordinate has no other link as neighbour and is nobody's neighbour *)
Theorem C120_missing_coordinate : forall (L : libm F64) n lata lona latb lonb radius i j, nan_in_nan_out L ->
  length lata = n -> length lona = n -> length latb = n -> length lonb = n -> i < n -> j < n -> i <> j ->
  n_isnan (at_ lata i) = true \/ n_isnan (at_ lona i) = true \/ n_isnan (at_ latb i) = true \/ n_isnan (at_ lonb i) = true ->
  get false (get [] (within_r (calc_distance_between_cml_endpoints L n lata lona latb lonb) radius) i) j = false /\
  get false (get [] (within_r (calc_distance_between_cml_endpoints L n lata lona latb lonb) radius) j) i = false.
Proof. exact (missing_coordinate F64sem). Qed.
Print Assumptions C120_missing_coordinate.
Theorem C120_nan_law_satisfiable : nan_in_nan_out F64cr.
Proof. exact F64cr_nan. Qed.
Print Assumptions C120_nan_law_satisfiable.

(** exact arithmetic: the origin of longitudes does not matter, nor full turns *)
Theorem C120_origin_of_longitudes_exact : forall n (lata lona latb lonb : list R) c radius,
  length lata = n -> length lona = n -> length latb = n -> length lonb = n ->
  within_r (calc_distance_between_cml_endpoints XRm n (ofR lata) (ofR (map (fun x => x + c) lona)%R) (ofR latb) (ofR (map (fun x => x + c) lonb)%R)) radius =
  within_r (calc_distance_between_cml_endpoints XRm n (ofR lata) (ofR lona) (ofR latb) (ofR lonb)) radius.
Proof. exact neighbours_shift. Qed.
Print Assumptions C120_origin_of_longitudes_exact.
Theorem C120_full_turn_exact : forall lon1 lat1 lon2 lat2 : R,
  haversine XRm (XFin (lon1 + 360) : XR) (XFin lat1 : XR) (XFin lon2 : XR) (XFin lat2 : XR) =
  haversine XRm (XFin lon1 : XR) (XFin lat1 : XR) (XFin lon2 : XR) (XFin lat2 : XR).
Proof. exact haversine_turn. Qed.
Print Assumptions C120_full_turn_exact.

(** two links, the second one turned around; the third has no latitude *)
Example C120_case : forall L radius,
  within_r (calc_distance_between_cml_endpoints L 2 [#48; #46] [#10; #12] [#48; #47] [#11; #11]) radius =
  within_r (calc_distance_between_cml_endpoints L 2 [#48; #47] [#10; #11] [#48; #46] [#11; #12]) radius.
Proof.
  intros L radius. apply C120_ends_do_not_matter; try reflexivity.
  intros i Hi. destruct i as [|[|i]]; [left|right|lia]; repeat split.
Qed.
Example C120_case_missing : get false (get [] (within_r (calc_distance_between_cml_endpoints F64cr 2 [#48; fNaN] [#10; #11] [#48; #46] [#11; #12]) #15) 0) 1 = false.
Proof.
  apply (C120_missing_coordinate F64cr 2 [#48; fNaN] [#10; #11] [#48; #46] [#11; #12] #15 1 0 F64cr_nan); try reflexivity; try lia. left; vm_compute; reflexivity.
Qed.
