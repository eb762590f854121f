(** * Properties C102, C103, C104: constant offsets of the received level

    Received levels of real hardware carry an unknown constant offset per
    link.  The theorems say which outputs do not depend on it (exact
    arithmetic: binary64 subtraction of shifted levels rounds differently). *)
From Coq Require Import List ZArith Bool String Reals.
From Verif Require Import Base Num NumF64 NumList NpOps Libm Libm64 RealSpec Baseline_model KR_model KR_spec NearbyRain_model NearbyWetdry_model
  MinMax_model Chain_model NearbyWetdry_props Chain_props Shift_spec Shift_proofs.
Import ListNotations.
Local Open Scope nat_scope.
Local Notation length := List.length.

(** ** C102: nearby-link approach *)
Theorem C102_classification : forall T (cs : list R) (pmin : list (list XR)) lengths ds radius thrP thrPL ml interval tp mh,
  length cs = length pmin ->
  nearby_wetdry T (offs cs pmin) lengths ds radius thrP thrPL ml interval tp mh =
  nearby_wetdry T pmin lengths ds radius thrP thrPL ml interval tp mh.
Proof. exact wetdry_offs. Qed.
Print Assumptions C102_classification.

(** the first link 7 dB higher, the second 3 dB lower *)
Example C102_case :
  let lv := fun a b => [[#(a-50); #(a-50); #(a-50); #(a-50); #(a-60); #(a-50); #(a-50); #(a-50)]; [fNaN; #(b-50); #(b-50); #(b-50); #(b-58); #(b-50); #(b-50); #(b-50)]]%Z in
  let run := fun p => nearby_wetdry 8 p [#5; #5] (demo_dist 2) #15 thr_P thr_PL 1 60 2 1 in
  match run (lv 0%Z 0%Z), run (lv 7%Z (-3)%Z) with
  | Ok (w, F), Ok (w', F') => f_same_list (get [] w 0) (get [] w' 0) && f_same_list (get [] w 1) (get [] w' 1) &&
      f_same_list (get [] F 0) (get [] F' 0) && f_same_list (get [] w 0) [fNaN; #0; #1; #1; #1; #1; #1; #1]
  | _, _ => false end = true.
Proof. vm_compute. reflexivity. Qed.

Theorem C102_reference_level : forall (c : R) (pmin pmax wet : list XR) n mp,
  nearby_determine_reference_level (off c pmin) (off c pmax) wet n mp =
  (do p <- nearby_determine_reference_level pmin pmax wet n mp; Ok (off c p)).
Proof. exact reference_shift. Qed.
Print Assumptions C102_reference_level.

Example C102_case_reference :
  match nearby_determine_reference_level [#(-48); #(-58); #(-52); #(-68); fNaN; #(-50)]
     [#(-48); #(-58); #(-52); #(-68); #(-38); #(-48)] [#0; #0; #0; #1; #0; fNaN] 4 2 with
  | Ok p => f_same_list p [fNaN; #(-53); #(-52); #(-52); #(-55); fNaN] | Err _ => false end = true.
Proof. vm_compute. reflexivity. Qed.

Theorem C102_rain_rate : forall L cubic (c : R) (pmin pmax wet F : list XR) n mp len f pol a b ap waa alpha thr,
  let rain := fun pmin pmax =>
    do pref <- nearby_determine_reference_level pmin pmax wet n mp;
    let '(cmin, cmax) := nearby_correct_received_signals pmin pmax wet pref in
    nearby_rainfall_retrival L cubic pref cmin cmax F len f pol a b ap waa alpha thr in
  rain (off c pmin) (off c pmax) = rain pmin pmax.
Proof. exact nearby_rain_shift. Qed.
Print Assumptions C102_rain_rate.

Example C102_case_rain :
  let rain := fun pmin pmax wet =>
    do pref <- nearby_determine_reference_level pmin pmax wet 4 1;
    let '(cmin, cmax) := nearby_correct_received_signals pmin pmax wet pref in
    nearby_rainfall_retrival F64demo (fun _ _ x => x) pref cmin cmax [#0; #0; #0; #0] #2 None None (Some (CScalar #1)) (Some (CScalar #1))
        EmptyString #2 f_half (Some (#(-32))) in
  match rain [#(-50); #(-60); fNaN; #(-60)] [#(-50); #(-60); #(-60); #(-60)] [#0; #1; #1; fNaN],
        rain [#(-45); #(-55); fNaN; #(-55)] [#(-45); #(-55); #(-55); #(-55)] [#0; #1; #1; fNaN] with
  | Ok r, Ok r' => f_same_list r r' && f_same_list r [#0; #4; #0; #0] | _, _ => false end = true.
Proof. vm_compute. reflexivity. Qed.

(** ** C103: baselines and the documented chain *)
Theorem C103_constant_baseline : forall (c : R) (trsl wet : list XR) n,
  baseline_constant (off c trsl) wet n = (do b <- baseline_constant trsl wet n; Ok (off c b)).
Proof. exact baseline_shift. Qed.
Print Assumptions C103_constant_baseline.

Theorem C103_chain : forall (c : R) L cubic clipped (trsl wet : list XR) n m dt tau (k : kr_args XR),
  chain L cubic clipped (off c trsl) wet n m dt tau k = chain L cubic clipped trsl wet n m dt tau k.
Proof. exact chain_shift. Qed.
Print Assumptions C103_chain.

Example C103_case :
  match baseline_constant [#13; #15; #20; fNaN; #14] [#0; #0; #1; #1; #0] 2, baseline_constant [#10; #12; #17; fNaN; #11] [#0; #0; #1; #1; #0] 2,
        chain F64demo no_cubic true [#13; #13; #15; #23; fNaN; #17; #33] [#0; #0; #1; #1; #1; #1; #0] 1 #2 #1 #6 demo_args with
  | Ok b, Ok b', Ok R => f_same_list b [#13; #15; #14; #14; #14] && f_same_list b' [#10; #12; #11; #11; #11] &&
      f_same_list R [#0; #0; #1; f_div #289 #4; fNaN; #4; #0] | _, _, _ => false end = true.
Proof. vm_compute. reflexivity. Qed.

(** The linear baseline follows the offset when the last sample is dry ... *)
Theorem C103_linear_baseline : forall (c : R) (rsl wet : list XR) ign,
  (length rsl <= length wet -> n_eqb (nget wet (length rsl - 1)) (n_ofZ 0 : XR) = true \/ length rsl = 1) ->
  baseline_linear (off c rsl) wet ign = (do b <- baseline_linear rsl wet ign; Ok (off c b)).
Proof. exact linear_shift. Qed.
Print Assumptions C103_linear_baseline.

Example C103_case_linear :
  match baseline_linear [#13; #15; #20; #21] [#0; #1; #1; #0] false, baseline_linear [#10; #12; #17; #18; fNaN] [#0; #1; #0; fNaN; #0] false with
  | Ok b, Ok b' => f_same_list (firstn 1 b) [#13] && f_same_list b' [#10; f_div #27 #2; fNaN; fNaN; fNaN] | _, _ => false end = true.
Proof. vm_compute. reflexivity. Qed.

(** ... and does not follow it in a wet period that reaches the end of the
    record, because zeros are left there (C06). *)
Theorem C103_linear_baseline_refuted : forall c : R, c <> 0%R ->
  exists (rsl wet b b' : list XR), baseline_linear rsl wet false = Ok b /\ baseline_linear (off c rsl) wet false = Ok b' /\ b' <> off c b.
Proof. exact linear_shift_refuted. Qed.
Print Assumptions C103_linear_baseline_refuted.

Example C103_case_linear_end :
  match baseline_linear [#5; #7] [#0; #1] false, baseline_linear [#6; #8] [#0; #1] false with
  | Ok b, Ok b' => f_same_list b [#5; #0] && f_same_list b' [#6; #0] | _, _ => false end = true.
Proof. vm_compute. reflexivity. Qed.

(** ** C104: min-max attenuation *)
Theorem C104_complete_data : forall (d e : R) (tx_min tx_max rx_min rx_max : list XR) (gT gR : XR) w,
  (forall x, In x (tx_min ++ tx_max ++ rx_min ++ rx_max) -> finite x) -> finite gT -> finite gR ->
  calc_A_min_max (off d tx_min) (off d tx_max) (off e rx_min) (off e rx_max) gT gR w = calc_A_min_max tx_min tx_max rx_min rx_max gT gR w.
Proof. exact min_max_shift_complete. Qed.
Print Assumptions C104_complete_data.

Example C104_case :
  match calc_A_min_max [#10; #11; #9] [#10; #12; #10] [#(-40); #(-45); #(-40)] [#(-39); #(-41); #(-39)] #1 #1 1,
        calc_A_min_max [#13; #14; #12] [#13; #15; #13] [#(-38); #(-43); #(-38)] [#(-37); #(-39); #(-37)] #1 #1 1 with
  | Ok a, Ok a' => f_same_list a a' && f_same_list a [fNaN; #6; #0] | _, _ => false end = true.
Proof. vm_compute. reflexivity. Qed.

(** with missing data if the offsets differ by an even number of dB *)
Theorem C104_even_offset : forall (d e : R) (k : Z) (tx_min tx_max rx_min rx_max : list XR) (gT gR : XR) w, (d - e = 2 * IZR k)%R ->
  calc_A_min_max (off d tx_min) (off d tx_max) (off e rx_min) (off e rx_max) gT gR w = calc_A_min_max tx_min tx_max rx_min rx_max gT gR w.
Proof. exact min_max_shift_even. Qed.
Print Assumptions C104_even_offset.

Example C104_case_even :
  let z := [#0; #0; #0] in
  match calc_A_min_max [#50; #51; fNaN] [#50; #51; fNaN] z z #0 #0 2, calc_A_min_max [#52; #53; fNaN] [#52; #53; fNaN] z z #0 #0 2 with
  | Ok a, Ok a' => f_same_list a a' && f_same_list a [fNaN; fNaN; #0] | _, _ => false end = true.
Proof. vm_compute. reflexivity. Qed.

(** ... but one dB more changes the attenuation: missing values are replaced by
    the mean rounded half to even. *)
Theorem C104_odd_offset_refuted : exists (tx tx' rx a a' : list F64) w,
  length tx = length tx' /\ (forall i, i < length tx -> get n_nan tx' i = n_add (get n_nan tx i) (n_ofZ 1)) /\
  calc_A_min_max tx tx rx rx (n_ofZ 0) (n_ofZ 0) w = Ok a /\ calc_A_min_max tx' tx' rx rx (n_ofZ 0) (n_ofZ 0) w = Ok a' /\
  exists i, i < length a /\ n_ltb (get n_nan a i) (get n_nan a' i) = true.
Proof. exact min_max_odd. Qed.
Print Assumptions C104_odd_offset_refuted.

Example C104_case_odd :
  let z := [#0; #0; #0] in
  match calc_A_min_max [#50; #51; fNaN] [#50; #51; fNaN] z z #0 #0 2, calc_A_min_max [#51; #52; fNaN] [#51; #52; fNaN] z z #0 #0 2 with
  | Ok a, Ok a' => f_same_list a [fNaN; fNaN; #0] && f_same_list a' [fNaN; fNaN; #1] | _, _ => false end = true.
Proof. vm_compute. reflexivity. Qed.
