(** * Properties C28-C31: nearby-link rain retrieval *)
From Coq Require Import List ZArith Bool String Reals Lra Lia.
From Verif Require Import Base Num NumF64 NumList NpOps Libm Libm64 RealSpec RealStat Median KR_model KR_spec KR_proofs Pastorek_spec
  NearbyRain_model NearbyRain_spec NearbyRain_proofs.
Import ListNotations.
Local Open Scope nat_scope.
Local Notation length := List.length.

Theorem C28_reference_level_is_median : forall (pmin pmax wet : list F64) n mp,
  length pmin = length wet -> length pmax = length wet -> 1 <= mp <= n -> n <= length wet ->
  exists pref, nearby_determine_reference_level pmin pmax wet n mp = Ok pref /\ length pref = length wet /\
  forall t, t < length wet -> let v := dry_levels pmin pmax wet n t in
    (length v < mp -> get n_nan pref t = n_nan) /\
    (mp <= length v -> is_median v (get n_nan pref t)).
Proof. exact (reference_level F64sem). Qed.
Print Assumptions C28_reference_level_is_median.

(** wet, unknown and NaN-level steps do not count *)
Example C28_case :
  match nearby_determine_reference_level [#(-50); #(-60); #(-54); #(-70); fNaN; #(-52)]
     [#(-50); #(-60); #(-54); #(-70); #(-40); #(-50)] [#0; #0; #0; #1; #0; fNaN] 4 2 with
  | Ok p => f_same_list p [fNaN; #(-55); #(-54); #(-54); #(-57); fNaN] | Err _ => false end = true.
Proof. vm_compute. reflexivity. Qed.

Theorem C28_reference_level_range_exact : forall (pmin pmax : list R) (wet : list XR) n mp lo hi,
  length pmin = length wet -> length pmax = length wet -> 1 <= mp <= n -> n <= length wet ->
  exists pref, nearby_determine_reference_level (ofR pmin) (ofR pmax) wet n mp = Ok pref /\
  forall t, t < length wet -> mp <= length (dry_levels (ofR pmin) (ofR pmax) wet n t) ->
    (forall k, t < k + n -> k <= t -> n_eqb (get (n_nan : XR) wet k) (n_ofZ 0) = true ->
       (lo <= (rget pmin k + rget pmax k) / 2 <= hi)%R) ->
    exists r, get (n_nan : XR) pref t = (XFin r : XR) /\ (lo <= r <= hi)%R.
Proof. exact reference_range. Qed.
Print Assumptions C28_reference_level_range_exact.

Example C28_case_exact : length (dry_levels (ofR [(-50)%R; (-60)%R]) (ofR [(-50)%R; (-60)%R]) [XFin 0 : XR; XFin 0 : XR] 2 1) = 2.
Proof.
  unfold dry_levels. rewrite map_length.
  assert (Z : n_eqb (XFin 0 : XR) (n_ofZ 0) = true) by (apply (proj2 (xeqb_true (XFin 0) (XFin 0))); split; reflexivity).
  assert (D : forall x : R, n_isnan (n_div (XFin x : XR) (n_ofZ 2)) = false).
  { intros x. change (xisnan (xdiv (XFin x) (XFin 2)) = false). rewrite xdiv_fin by lra. reflexivity. }
  change (seq (1 + 1 - 2) (1 + 1 - (1 + 1 - 2))) with [0; 1]. cbn [filter].
  change (get (n_nan : XR) [XFin 0 : XR; XFin 0 : XR] 0) with (XFin 0 : XR). change (get (n_nan : XR) [XFin 0 : XR; XFin 0 : XR] 1) with (XFin 0 : XR).
  rewrite Z. change (level (ofR [(-50)%R; (-60)%R]) (ofR [(-50)%R; (-60)%R]) 0) with (n_div (XFin (-50 + -50) : XR) (n_ofZ 2)).
  change (level (ofR [(-50)%R; (-60)%R]) (ofR [(-50)%R; (-60)%R]) 1) with (n_div (XFin (-60 + -60) : XR) (n_ofZ 2)).
  rewrite !D. reflexivity.
Qed.

Theorem C29_corrected_signals : forall (pmin pmax wet pref : list F64) T,
  length pmin = T -> length pmax = T -> length wet = T -> length pref = T ->
  exists cmin cmax, nearby_correct_received_signals pmin pmax wet pref = (cmin, cmax) /\
  length cmin = T /\ length cmax = T /\
  forall t, t < T ->
    let rainy := n_eqb (get n_nan wet t) (n_ofZ 1) && n_ltb (get n_nan pmin t) (get n_nan pref t) in
    get n_nan cmin t = (if rainy then get n_nan pmin t else get n_nan pref t) /\
    get n_nan cmax t = (if rainy && n_ltb (get n_nan pmax t) (get n_nan pref t) then get n_nan pmax t else get n_nan pref t) /\
    (n_isnan (get n_nan pref t) = false ->
       n_leb (get n_nan cmin t) (get n_nan pref t) = true /\ n_leb (get n_nan cmax t) (get n_nan pref t) = true).
Proof. exact (correct_signals F64sem). Qed.
Print Assumptions C29_corrected_signals.

Example C29_case :
  let '(cmin, cmax) := nearby_correct_received_signals [#(-60); #(-60); fNaN; #(-60)] [#(-55); #(-45); #(-55); #(-55)]
     [#1; #1; #1; #0] [#(-50); #(-50); #(-50); #(-50)] in
  f_same_list cmin [#(-60); #(-60); #(-50); #(-50)] && f_same_list cmax [#(-55); #(-50); #(-50); #(-50)] = true.
Proof. vm_compute. reflexivity. Qed.

Theorem C30_retrieval_mixes_exact : forall cubic (pref cmin cmax : list R) (F : list XR) (len a b waa alpha : R) thr ap T,
  length pref = T -> length cmin = T -> length cmax = T -> length F = T ->
  (0 < len)%R -> (0 < a)%R -> (0 < b)%R -> (0 <= alpha <= 1)%R ->
  exists rain, nearby_rainfall_retrival XRm cubic (ofR pref) (ofR cmin) (ofR cmax) F (XFin len : XR) None None
     (Some (CScalar (XFin a : XR))) (Some (CScalar (XFin b : XR))) ap (XFin waa : XR) (XFin alpha : XR) thr = Ok rain /\ length rain = T /\
  forall t, t < T ->
    (~ unfiltered F thr t -> get (n_nan : XR) rain t = n_nan) /\
    (n_isnan (get (n_nan : XR) F t) = true -> unfiltered F thr t) /\
    (unfiltered F thr t -> exists r : R,
      get (n_nan : XR) rain t = (XFin r : XR) /\
      let r_min := rain_of a b len (rain_attenuation (rget pref t) (rget cmax t) waa) in
      let r_max := rain_of a b len (rain_attenuation (rget pref t) (rget cmin t) waa) in
      r = (alpha * r_max + (1 - alpha) * r_min)%R /\ (0 <= r)%R /\ (Rmin r_min r_max <= r <= Rmax r_min r_max)%R /\
      ((rget cmin t <= rget cmax t)%R -> (r_min <= r <= r_max)%R)).
Proof. exact retrieval_exact_full. Qed.
Print Assumptions C30_retrieval_mixes_exact.

(** linear coefficients, attenuations 4 and 8 after 2 dB of wet antenna on 2 km; one value filtered *)
Example C30_case :
  match nearby_rainfall_retrival F64demo (fun _ _ x => x) [#(-50); #(-50); #(-50)] [#(-60); #(-60); #(-60)] [#(-56); #(-56); #(-51)]
     [#0; #(-40); fNaN] #2 None None (Some (CScalar #1)) (Some (CScalar #1)) "ITU_2005" #2 f_half (Some (#(-32))) with
  | Ok r => f_same_list r [#3; fNaN; #2] | Err _ => false end = true.
Proof. vm_compute. reflexivity. Qed.

Theorem C30_parameter_combinations : forall L cubic (pref pmin pmax F : list F64) len f pol a b ap waa alpha thr,
  ~ (f <> None /\ pol <> None /\ a = None /\ b = None) ->
  ~ (f = None /\ pol = None /\ a <> None /\ b <> None) ->
  nearby_rainfall_retrival L cubic pref pmin pmax F len f pol a b ap waa alpha thr = Err ValueError.
Proof. exact (@retrieval_combos F64). Qed.
Print Assumptions C30_parameter_combinations.

(** the outlier score is used only with a threshold, and must then have one value per time stamp *)
Theorem C30_outlier_score : forall L cubic (pref cmin cmax F : list F64) len a b ap waa alpha,
  (forall F' f pol a b, nearby_rainfall_retrival L cubic pref cmin cmax F len f pol a b ap waa alpha None =
     nearby_rainfall_retrival L cubic pref cmin cmax F' len f pol a b ap waa alpha None) /\
  (forall T x, length pref = T -> length cmin = T -> length cmax = T -> length F <> T -> n_eqb b (n_ofZ 0) = false ->
     nearby_rainfall_retrival L cubic pref cmin cmax F len None None (Some (CScalar a)) (Some (CScalar b)) ap waa alpha (Some x) = Err IndexError).
Proof.
  exact (fun L cubic pref cmin cmax F len a b ap waa alpha => conj
    (fun F' f pol a b => retrieval_score_unused L cubic pref cmin cmax F F' len f pol a b ap waa alpha)
    (fun T x H1 H2 H3 H4 Hb => retrieval_score_length L cubic pref cmin cmax F len (CScalar a) (CScalar b) a _ waa alpha x ap T H1 H2 H3 H4 eq_refl
       (coef_inv_nonzero b Hb))).
Qed.
Print Assumptions C30_outlier_score.

(** two scores for one time stamp: refused with a threshold, not looked at without one *)
Example C30_case_outlier_score :
  nearby_rainfall_retrival F64demo (fun _ _ x => x) [#(-50)] [#(-60)] [#(-56)] [#0; #1] #2 None None
     (Some (CScalar #1)) (Some (CScalar #1)) "ITU_2005" #2 f_half (Some #0) = Err IndexError /\
  match nearby_rainfall_retrival F64demo (fun _ _ x => x) [#(-50)] [#(-60)] [#(-56)] [#0; #1] #2 None None
     (Some (CScalar #1)) (Some (CScalar #1)) "ITU_2005" #2 f_half None with Ok R => Nat.eqb (length R) 1 | Err _ => false end = true.
Proof. split; vm_compute; reflexivity. Qed.

Example C30_case_combination :
  nearby_rainfall_retrival F64demo (fun _ _ x => x) [#(-50)] [#(-60)] [#(-56)] [#0] #2 (Some [#23]) (Some (PolStr "V"))
     (Some (CScalar #1)) None "ITU_2005" #2 f_half None = Err ValueError.
Proof. reflexivity. Qed.

Theorem C31_no_rain_when_not_wet : forall L cubic (pmin pmax wet F : list F64) n mp len a b waa alpha thr ap T,
  pow_zero L ->
  length pmin = T -> length pmax = T -> length wet = T -> length F = T -> 1 <= mp <= n -> n <= T ->
  n_ltb (n_ofZ 0) (n_mul a len) = true -> positive b -> n_ltb (n_ofZ 0) (n_div (n_ofZ 1) b) = true ->
  n_leb (n_ofZ 0) waa = true -> n_leb (n_ofZ 0) alpha = true -> n_leb alpha (n_ofZ 1) = true ->
  exists pref cmin cmax R,
    nearby_determine_reference_level pmin pmax wet n mp = Ok pref /\
    nearby_correct_received_signals pmin pmax wet pref = (cmin, cmax) /\
    nearby_rainfall_retrival L cubic pref cmin cmax F len None None (Some (CScalar a)) (Some (CScalar b)) ap waa alpha thr = Ok R /\
    length R = T /\
    forall t, t < T ->
      finite (get n_nan pref t) -> unfiltered F thr t ->
      n_eqb (get n_nan wet t) (n_ofZ 1) = false \/ n_isnan (get n_nan pmin t) = true ->
      n_eqb (get n_nan R t) (n_ofZ 0) = true.
Proof. exact (no_rain_when_not_wet F64sem). Qed.
Print Assumptions C31_no_rain_when_not_wet.

(** the law asked of the power function holds for the correctly rounded one *)
Theorem C31_pow_law_satisfiable : pow_zero F64cr.
Proof. exact F64cr_pow_zero. Qed.
Print Assumptions C31_pow_law_satisfiable.

(** dry, rain, missing pmin during rain, unknown wetness *)
Example C31_case :
  match nearby_determine_reference_level [#(-50); #(-60); fNaN; #(-60)] [#(-50); #(-60); #(-60); #(-60)] [#0; #1; #1; fNaN] 4 1 with
  | Ok pref =>
      let '(cmin, cmax) := nearby_correct_received_signals [#(-50); #(-60); fNaN; #(-60)] [#(-50); #(-60); #(-60); #(-60)] [#0; #1; #1; fNaN] pref in
      match nearby_rainfall_retrival F64demo (fun _ _ x => x) pref cmin cmax [#0; #0; #0; #0] #2 None None (Some (CScalar #1)) (Some (CScalar #1))
        "ITU_2005" #2 f_half (Some (#(-32))) with
      | Ok r => f_same_list r [#0; #4; #0; #0] | Err _ => false end
  | Err _ => false end = true.
Proof. vm_compute. reflexivity. Qed.
