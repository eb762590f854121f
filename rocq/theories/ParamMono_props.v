(** * Property C142: thresholds and correction parameters act in one direction *)
From Coq Require Import List ZArith Bool String Reals Lra Lia.
From Verif Require Import Base Num NumF64 NumList RealSpec Libm Libm64 KR_model KR_spec Blackout_model Blackout_spec Baseline_model Schleiss_model Chain_model Chain_spec
  NearbyWetdry_model NearbyWetdry_spec NearbyRain_model NearbyRain_spec ParamMono_spec ParamMono_proofs.
Import ListNotations.
Local Open Scope nat_scope.
Local Notation length := List.length.

(** larger thresholds of the median drops: wet steps stay wet, the same flags
    are missing, and the outlier score is the same; so are errors *)
Theorem C142_wet_thresholds : forall T (pmin : list (list F64)) lens d radius (thrP thrPL thrP' thrPL' : F64) ml interval tp mh,
  n_leb thrP thrP' = true -> n_leb thrPL thrPL' = true ->
  let call := fun a b => nearby_wetdry T pmin lens d radius a b ml interval tp mh in
  (forall e, call thrP thrPL = Err e -> call thrP' thrPL' = Err e) /\
  (forall wet F, call thrP thrPL = Ok (wet, F) -> exists wet', call thrP' thrPL' = Ok (wet', F) /\
     forall i t, stays_wet (cell wet i t) (cell wet' i t)).
Proof.
  intros T pmin lens d radius thrP thrPL thrP' thrPL' ml interval tp mh H1 H2 call.
  pose proof (wetdry_mono F64sem T pmin lens d radius thrP thrPL thrP' thrPL' ml interval tp mh H1 H2) as C. fold (call thrP thrPL) (call thrP' thrPL') in C.
  split.
  - intros e E. rewrite E in C. destruct (call thrP' thrPL') as [[? ?]|e']; simpl in C; [contradiction|congruence].
  - intros wet F E. rewrite E in C. destruct (call thrP' thrPL') as [[wet' F']|e']; simpl in C; [|contradiction]. destruct C as [C ->].
    exists wet'. split; [reflexivity|]. intros i t. unfold cell. apply Forall2_get; [left; split; reflexivity|]. apply Forall2_get; [constructor|exact C].
Qed.
Print Assumptions C142_wet_thresholds.

(** three links, 10 dB threshold against 2 dB: one step of five becomes wet *)
Definition three_dist : distances F64 := {| a_to_all_a := repeat (repeat #1 3) 3; a_to_all_b := repeat (repeat #1 3) 3; b_to_all_a := repeat (repeat #1 3) 3; b_to_all_b := repeat (repeat #1 3) 3 |}.
Definition three_levels : list (list F64) := repeat [#(-50); #(-50); #(-50); #(-50); #(-51); #(-50); #(-50); #(-50); #(-50)] 3.
Example C142_case_thresholds :
  match nearby_wetdry 9 three_levels (repeat #1 3) three_dist #15 #(-10) #(-1) 0 60 2 1, nearby_wetdry 9 three_levels (repeat #1 3) three_dist #15 #0 #0 0 60 2 1 with
  | Ok (w, _), Ok (w', _) => f_same_list (slice 1 7 (get [] w 0)) [#0; #0; #0; #0; #0; #0] && f_same_list (slice 1 7 (get [] w' 0)) [#0; #0; #0; #1; #0; #0]
  | _, _ => false end = true.
Proof. vm_compute. reflexivity. Qed.

(** a larger level threshold marks no blackout gap less, with one scan or both *)
Theorem C142_blackout_threshold : forall (rsl : list F64) thr thr', n_leb thr thr' = true ->
  (exists m m', created_blackout_gap_mask rsl (fst (get_blackout_start_and_end rsl thr)) (snd (get_blackout_start_and_end rsl thr)) = Ok m /\
    created_blackout_gap_mask rsl (fst (get_blackout_start_and_end rsl thr')) (snd (get_blackout_start_and_end rsl thr')) = Ok m' /\
    forall i, i < length rsl -> get false m i = true -> get false m' i = true) /\
  exists m m', notebook_mask rsl thr = Ok m /\ notebook_mask rsl thr' = Ok m' /\ forall i, i < length rsl -> get false m i = true -> get false m' i = true.
Proof. exact (blackout_mono F64sem). Qed.
Print Assumptions C142_blackout_threshold.

Example C142_case_blackout :
  let rsl := [#(-50); #(-70); fNaN; fNaN; #(-50); #(-62); fNaN; #(-50); #(-50)] in
  match notebook_mask rsl #(-65), notebook_mask rsl #(-60) with
  | Ok m, Ok m' => m = [false; false; true; true; false; false; false; false; false] /\ m' = [false; false; true; true; false; false; true; false; false]
  | _, _ => False end.
Proof. vm_compute. split; reflexivity. Qed.

(** exact arithmetic: a larger waa_max or a faster wetting (smaller tau, larger
    delta_t) never lowers the wet antenna attenuation and never raises the rain
    rate of the documented chain *)
Theorem C142_wet_antenna_parameters_exact : forall cubic c (trsl wet : list XR) n (m m' dt tau dt' tau' : R) (k : kr_args XR),
  plain_coefficients k -> 1 <= n -> length wet = length trsl -> Forall finite_or_missing trsl -> (0 <= m <= m')%R -> tau <> 0%R -> tau' <> 0%R ->
  (0 <= 3 * dt / tau <= 3 * dt' / tau')%R -> (3 * dt' / tau' <= 1)%R ->
  exists bl w w' R R', baseline_constant trsl wet n = Ok bl /\
    waa_schleiss_2013 trsl bl wet (XFin m : XR) (XFin dt : XR) (XFin tau : XR) = Ok w /\
    waa_schleiss_2013 trsl bl wet (XFin m' : XR) (XFin dt' : XR) (XFin tau' : XR) = Ok w' /\
    chain XRm cubic c trsl wet n (XFin m : XR) (XFin dt : XR) (XFin tau : XR) k = Ok R /\
    chain XRm cubic c trsl wet n (XFin m' : XR) (XFin dt' : XR) (XFin tau' : XR) k = Ok R' /\
    length R = length trsl /\ length R' = length trsl /\
    forall i, i < length trsl -> not_above (get n_nan w i) (get n_nan w' i) /\
      (missing (get n_nan R i) <-> missing (get n_nan R' i)) /\ (~ missing (get n_nan R i) -> n_leb (get n_nan R' i) (get n_nan R i) = true).
Proof. exact chain_params. Qed.
Print Assumptions C142_wet_antenna_parameters_exact.

(** twice as fast: more wet antenna attenuation, less rain; missing at the same step *)
Definition mono_args : kr_args F64 := mk_kr_args (#1) None None (Some (CScalar #1)) (Some (CScalar #1)) EmptyString (f_div #1 #8).
Example C142_case_chain :
  match chain F64demo (fun _ _ x => x) true [#10; #14; #14; fNaN; #14] [#0; #1; #1; #1; #1] 1 #4 #1 #12 mono_args,
        chain F64demo (fun _ _ x => x) true [#10; #14; #14; fNaN; #14] [#0; #1; #1; #1; #1] 1 #4 #1 #6 mono_args with
  | Ok R, Ok R' => f_same_list R [#0; #3; f_div #9 #4; fNaN; #0] && f_same_list R' [#0; #2; #1; fNaN; #0] | _, _ => false end = true.
Proof. vm_compute. reflexivity. Qed.
Example C142_case_hypotheses : Forall finite_or_missing [XFin 10 : XR; XFin 14 : XR; XNaN : XR] /\ (0 <= 3 * 1 / 12 <= 3 * 1 / 6)%R /\ (3 * 1 / 6 <= 1)%R /\
  plain_coefficients (mk_kr_args (XFin 1 : XR) None None (Some (CScalar (XFin 1 : XR))) (Some (CScalar (XFin 1 : XR))) EmptyString (XFin 0 : XR)).
Proof.
  split; [do 2 (apply Forall_cons; [right; eexists; reflexivity|]); apply Forall_cons; [left; reflexivity|apply Forall_nil]|]. split; [lra|]. split; [lra|].
  assert (P : forall x : R, (0 < x)%R -> positive (XFin x : XR)) by (intros; apply KR_proofs.pos_XR; auto).
  exists (XFin 1 : XR), (XFin 1 : XR). do 4 (split; [reflexivity|]).
  split; [apply P; lra|]. split; [split; reflexivity|]. split; [apply P; lra|].
  change (n_div (n_ofZ 1) (XFin 1 : XR)) with (xdiv (XFin 1) (XFin 1) : XR). rewrite KR_proofs.xdiv_fin by lra. apply P. lra.
Qed.

(** exact arithmetic, nearby-link rain rates: a larger waa_max or a smaller
    weight of the minimum level never raises them *)
Theorem C142_nearby_parameters_exact : forall cubic (pref cmin cmax F : list XR) (len a b waa waa' alpha alpha' : R) thr ap,
  length cmin = length pref -> length cmax = length pref -> length F = length pref ->
  (0 < len)%R -> (0 < a)%R -> (0 < b)%R -> (0 <= alpha' <= alpha)%R -> (alpha <= 1)%R -> (waa <= waa')%R ->
  exists rain rain', nearby_rainfall_retrival XRm cubic pref cmin cmax F (XFin len : XR) None None
     (Some (CScalar (XFin a : XR))) (Some (CScalar (XFin b : XR))) ap (XFin waa : XR) (XFin alpha : XR) thr = Ok rain /\
   nearby_rainfall_retrival XRm cubic pref cmin cmax F (XFin len : XR) None None
     (Some (CScalar (XFin a : XR))) (Some (CScalar (XFin b : XR))) ap (XFin waa' : XR) (XFin alpha' : XR) thr = Ok rain' /\
  forall t p x m, t < length pref -> unfiltered F thr t ->
    get n_nan pref t = XFin p -> get n_nan cmin t = XFin x -> get n_nan cmax t = XFin m -> (x <= m)%R ->
    exists r r', get n_nan rain t = XFin r /\ get n_nan rain' t = XFin r' /\ (r' <= r)%R.
Proof. exact nearby_params. Qed.
Print Assumptions C142_nearby_parameters_exact.

(** a larger outlier threshold removes the steps with a score up to it and changes nothing else *)
Theorem C142_outlier_threshold : forall (L : libm F64) cubic (pref cmin cmax F : list F64) (len a b waa alpha thr thr' : F64) ap,
  length cmin = length pref -> length cmax = length pref -> length F = length pref -> n_eqb b (n_ofZ 0) = false -> n_leb thr thr' = true ->
  exists rain rain', nearby_rainfall_retrival L cubic pref cmin cmax F len None None (Some (CScalar a)) (Some (CScalar b)) ap waa alpha (Some thr) = Ok rain /\
    nearby_rainfall_retrival L cubic pref cmin cmax F len None None (Some (CScalar a)) (Some (CScalar b)) ap waa alpha (Some thr') = Ok rain' /\
    forall t, t < length pref -> get n_nan rain' t = if n_leb (get n_nan F t) thr' then n_nan else get n_nan rain t.
Proof. exact (outlier_threshold F64sem). Qed.
Print Assumptions C142_outlier_threshold.

Example C142_case_nearby :
  let call waa alpha thr := nearby_rainfall_retrival F64demo (fun _ _ x => x) [#(-50); #(-50); #(-50)] [#(-60); #(-60); #(-60)] [#(-56); #(-56); #(-51)]
     [#0; #(-40); #(-20)] #2 None None (Some (CScalar #1)) (Some (CScalar #1)) "ITU_2005" waa alpha (Some thr) in
  match call #2 f_half #(-32), call #4 f_half #(-32), call #2 #0 #(-32), call #2 f_half #(-20) with
  | Ok r, Ok r1, Ok r2, Ok r3 => f_same_list r [#3; fNaN; #2] && f_same_list r1 [#2; fNaN; f_div #3 #2] && f_same_list r2 [#2; fNaN; #0] && f_same_list r3 [#3; fNaN; fNaN]
  | _, _, _, _ => false end = true.
Proof. vm_compute. reflexivity. Qed.

(** More wet steps do not mean more rain: a wet step is not used for the
    reference level any more. *)
Definition nearby_rain (p wet : list F64) : res (list F64) :=
  do pref <- nearby_determine_reference_level p p wet 3 1;
  let c := nearby_correct_received_signals p p wet pref in
  nearby_rainfall_retrival F64demo (fun _ _ x => x) pref (fst c) (snd c) wet #1 None None (Some (CScalar #1)) (Some (CScalar #1)) "ITU_2005" #0 f_half None.
Definition more_wet_check : bool :=
  match nearby_rain [#(-50); #(-46); #(-60)] [#0; #0; #1], nearby_rain [#(-50); #(-46); #(-60)] [#0; #1; #1] with
  | Ok r, Ok r' => n_ltb (get n_nan r' 2) (get n_nan r 2) | _, _ => false end.
Lemma more_wet_case : more_wet_check = true.
Proof. vm_compute. reflexivity. Qed.
Theorem C142_more_wet_more_rain_refuted : exists (p wet wet' rain rain' : list F64) t,
  length wet = length p /\ length wet' = length p /\ t < length p /\ (forall i, stays_wet (get n_nan wet i) (get n_nan wet' i)) /\
  nearby_rain p wet = Ok rain /\ nearby_rain p wet' = Ok rain' /\ n_ltb (get n_nan rain' t) (get n_nan rain t) = true.
Proof.
  pose proof more_wet_case as H. unfold more_wet_check in H.
  destruct (nearby_rain [#(-50); #(-46); #(-60)] [#0; #0; #1]) as [r|] eqn:E; [|discriminate].
  destruct (nearby_rain [#(-50); #(-46); #(-60)] [#0; #1; #1]) as [r'|] eqn:E'; [|discriminate].
  exists [#(-50); #(-46); #(-60)], [#0; #0; #1], [#0; #1; #1], r, r', 2. do 2 (split; [reflexivity|]). split; [simpl; lia|]. split; [|split; [exact E|split; [exact E'|exact H]]].
  intros [|[|[|i]]]; [right; left; split; [reflexivity|left; reflexivity]|right; left; split; [reflexivity|right; reflexivity]|right; right; split; reflexivity|left].
  split; unfold get; apply nth_overflow; simpl; lia.
Qed.
Print Assumptions C142_more_wet_more_rain_refuted.
