(** * Property C141: wrong and inaccurate levels in the nearby-link approach *)
From Coq Require Import List ZArith Bool String Reals Lra Lia.
From Flocq Require Import Core.
From Verif Require Import Base Num NumF64 NumList RealSpec Libm Libm64 KR_model HaversineFloat_spec HaversineFloat_proofs MeasErr_spec Pastorek_spec
  NearbyRain_model NearbyRain_spec NearbyRain_proofs NearbyRobust_spec NearbyRobust_proofs.
Import ListNotations.
Local Open Scope nat_scope.
Local Notation length := List.length.

(** binary64: as long as fewer than half of the dry levels in the window are
    outside [lo, hi], whatever they are, the reference level is inside *)
Theorem C141_minority : forall (pmin pmax wet : list F64) n mp (lo hi : F64) rl rh,
  length pmin = length wet -> length pmax = length wet -> 1 <= mp <= n -> n <= length wet ->
  is_num lo rl -> is_num hi rh -> (Rabs rl <= bpow radix2 900)%R -> (Rabs rh <= bpow radix2 900)%R ->
  exists pref, nearby_determine_reference_level pmin pmax wet n mp = Ok pref /\ length pref = length wet /\
  forall t, t < length wet -> let v := dry_levels pmin pmax wet n t in
    mp <= length v -> 2 * length (filter (outside lo hi) v) < length v ->
    n_leb lo (get n_nan pref t) = true /\ n_leb (get n_nan pref t) hi = true.
Proof. exact reference_minority. Qed.
Print Assumptions C141_minority.

(** two of five dry levels are wrong, one of them infinite *)
Definition five_levels : list F64 := [#(-50); n_div #1 #0; #(-51); #(-200); #(-52)].
Definition five_dry : list F64 := [#0; #0; #0; #0; #0].
Example C141_case :
  match nearby_determine_reference_level five_levels five_levels five_dry 5 1 with
  | Ok p => n_leb #(-52) (get n_nan p 4) && n_leb (get n_nan p 4) #(-50)
      && Nat.eqb (length (filter (outside #(-52) #(-50)) (dry_levels five_levels five_levels five_dry 5 4))) 2
  | Err _ => false end = true.
Proof. vm_compute. reflexivity. Qed.

Example C141_case_bounds : is_num #(-52) (-52)%R /\ is_num #(-50) (-50)%R /\ (Rabs (-52)%R <= bpow radix2 900)%R /\ (Rabs (-50)%R <= bpow radix2 900)%R.
Proof.
  assert (B : (64 <= bpow radix2 900)%R) by (change 64%R with (bpow radix2 6); apply bpow_le; lia).
  split; [exact (num_ofZ (-52) ltac:(lia))|]. split; [exact (num_ofZ (-50) ltac:(lia))|].
  split; apply Rabs_le; lra.
Qed.

(** half of them is too many *)
Definition two_levels : list F64 := [#(-50); #(-90)].
Definition two_dry : list F64 := [#0; #0].
Definition half_check : bool :=
  match nearby_determine_reference_level two_levels two_levels two_dry 2 1 with
  | Ok pref => Nat.eqb (length (dry_levels two_levels two_levels two_dry 2 1)) 2
      && Nat.eqb (length (filter (outside #(-55) #(-45)) (dry_levels two_levels two_levels two_dry 2 1))) 1
      && outside #(-55) #(-45) (get n_nan pref 1)
  | Err _ => false end.
Lemma half_case : half_check = true.
Proof. vm_compute. reflexivity. Qed.
Theorem C141_half_refuted : exists (p wet : list F64) n mp (lo hi : F64) t pref,
  nearby_determine_reference_level p p wet n mp = Ok pref /\ t < length wet /\
  let v := dry_levels p p wet n t in
  mp <= length v /\ 2 * length (filter (outside lo hi) v) = length v /\ outside lo hi (get n_nan pref t) = true.
Proof.
  exists two_levels, two_dry, 2, 1, #(-55), #(-45), 1.
  pose proof half_case as H. unfold half_check in H.
  destruct (nearby_determine_reference_level two_levels two_levels two_dry 2 1) as [pref|]; [|discriminate].
  exists pref. apply andb_prop in H as [H H3]. apply andb_prop in H as [H1 H2]. apply Nat.eqb_eq in H1, H2.
  split; [reflexivity|]. split; [apply Nat.ltb_lt; reflexivity|]. cbv zeta. rewrite H1, H2. split; [lia|]. split; [reflexivity|exact H3].
Qed.
Print Assumptions C141_half_refuted.

(** exact arithmetic: levels wrong by at most [q] give reference levels wrong by
    at most [q], missing at the same steps *)
Theorem C141_reference_errors_exact : forall q (pmin pmin' pmax pmax' wet : list XR) n mp,
  close_records q pmin pmin' -> close_records q pmax pmax' ->
  length pmin = length wet -> length pmax = length wet -> 1 <= mp <= n -> n <= length wet ->
  exists pref pref', nearby_determine_reference_level pmin pmax wet n mp = Ok pref /\ nearby_determine_reference_level pmin' pmax' wet n mp = Ok pref' /\
    length pref = length wet /\ close_records q pref pref'.
Proof. exact reference_close. Qed.
Print Assumptions C141_reference_errors_exact.

(** ... and rain rates between those for the right levels with [2 q] more and
    [2 q] less wet antenna attenuation *)
Theorem C141_rain_errors_exact : forall cubic q (pmin pmin' pmax pmax' wet F : list XR) n mp (len a b waa alpha : R) thr ap,
  close_records q pmin pmin' -> close_records q pmax pmax' ->
  length pmin = length wet -> length pmax = length wet -> length F = length wet -> 1 <= mp <= n -> n <= length wet ->
  (0 < len)%R -> (0 < a)%R -> (0 < b)%R -> (0 <= alpha <= 1)%R ->
  exists pref pref' cmin cmax cmin' cmax' rain rain',
    nearby_determine_reference_level pmin pmax wet n mp = Ok pref /\ nearby_determine_reference_level pmin' pmax' wet n mp = Ok pref' /\
    nearby_correct_received_signals pmin pmax wet pref = (cmin, cmax) /\ nearby_correct_received_signals pmin' pmax' wet pref' = (cmin', cmax') /\
    nearby_rainfall_retrival XRm cubic pref cmin cmax F (XFin len : XR) None None
      (Some (CScalar (XFin a : XR))) (Some (CScalar (XFin b : XR))) ap (XFin waa : XR) (XFin alpha : XR) thr = Ok rain /\
    nearby_rainfall_retrival XRm cubic pref' cmin' cmax' F (XFin len : XR) None None
      (Some (CScalar (XFin a : XR))) (Some (CScalar (XFin b : XR))) ap (XFin waa : XR) (XFin alpha : XR) thr = Ok rain' /\
    forall t p, t < length wet -> unfiltered F thr t -> get n_nan pref t = XFin p ->
      (forall x y, get n_nan pmin t = XFin x -> get n_nan pmax t = XFin y -> (x <= y)%R) ->
      (forall x y, get n_nan pmin' t = XFin x -> get n_nan pmax' t = XFin y -> (x <= y)%R) ->
      (get n_nan pmin t = XNaN <-> get n_nan pmax t = XNaN) ->
      exists x m r', get n_nan cmin t = XFin x /\ get n_nan cmax t = XFin m /\
        get n_nan rain t = XFin (mixed_rate alpha a b len p x m waa) /\ get n_nan rain' t = XFin r' /\
        (mixed_rate alpha a b len p x m (waa + 2 * q) <= r' <= mixed_rate alpha a b len p x m (waa - 2 * q))%R.
Proof. exact rain_close. Qed.
Print Assumptions C141_rain_errors_exact.

(** [2 q] cannot be improved, whatever the parameters *)
Theorem C141_rain_errors_sharp_exact : forall cubic q (len a b waa alpha : R) ap,
  (0 <= q)%R -> (0 < len)%R -> (0 < a)%R -> (0 < b)%R -> (0 <= alpha <= 1)%R ->
  exists (p p' wet F pref pref' cmin cmax cmin' cmax' rain rain' : list XR) (d x m : R),
    close_records q p p' /\
    nearby_determine_reference_level p p wet 2 1 = Ok pref /\ nearby_determine_reference_level p' p' wet 2 1 = Ok pref' /\
    nearby_correct_received_signals p p wet pref = (cmin, cmax) /\ nearby_correct_received_signals p' p' wet pref' = (cmin', cmax') /\
    nearby_rainfall_retrival XRm cubic pref cmin cmax F (XFin len : XR) None None
      (Some (CScalar (XFin a : XR))) (Some (CScalar (XFin b : XR))) ap (XFin waa : XR) (XFin alpha : XR) None = Ok rain /\
    nearby_rainfall_retrival XRm cubic pref' cmin' cmax' F (XFin len : XR) None None
      (Some (CScalar (XFin a : XR))) (Some (CScalar (XFin b : XR))) ap (XFin waa : XR) (XFin alpha : XR) None = Ok rain' /\
    get n_nan pref 1 = XFin d /\ get n_nan cmin 1 = XFin x /\ get n_nan cmax 1 = XFin m /\ (waa < d - m)%R /\
    get n_nan rain 1 = XFin (mixed_rate alpha a b len d x m waa) /\
    get n_nan rain' 1 = XFin (mixed_rate alpha a b len d x m (waa - 2 * q)).
Proof. exact rain_sharp. Qed.
Print Assumptions C141_rain_errors_sharp_exact.

(** one decibel too high when dry and too low when wet: two decibels more attenuation *)
Example C141_case_errors :
  match nearby_determine_reference_level [#(-50); #(-60)] [#(-50); #(-60)] [#0; #1] 2 1,
        nearby_determine_reference_level [#(-49); #(-61)] [#(-49); #(-61)] [#0; #1] 2 1 with
  | Ok p, Ok p' =>
    match nearby_rainfall_retrival F64demo (fun _ _ x => x) p (fst (nearby_correct_received_signals [#(-50); #(-60)] [#(-50); #(-60)] [#0; #1] p))
       (snd (nearby_correct_received_signals [#(-50); #(-60)] [#(-50); #(-60)] [#0; #1] p)) [#0; #0] #2 None None
       (Some (CScalar #1)) (Some (CScalar #1)) "ITU_2005" #2 f_half None,
      nearby_rainfall_retrival F64demo (fun _ _ x => x) p' (fst (nearby_correct_received_signals [#(-49); #(-61)] [#(-49); #(-61)] [#0; #1] p'))
       (snd (nearby_correct_received_signals [#(-49); #(-61)] [#(-49); #(-61)] [#0; #1] p')) [#0; #0] #2 None None
       (Some (CScalar #1)) (Some (CScalar #1)) "ITU_2005" #2 f_half None with
    | Ok r, Ok r' => f_same_list r [#0; #4] && f_same_list r' [#0; #5] | _, _ => false end
  | _, _ => false end = true.
Proof. vm_compute. reflexivity. Qed.
