(** * Property C30 in binary64: the nearby rain retrieval mixes two rain rates *)
From Coq Require Import Reals Lra Lia ZArith Bool List String.
From Verif Require Import Base Num NumF64 NumList Libm Libm64 KR_model Pastorek_spec NearbyRain_model NearbyRain_spec HaversineFloat_spec HaversineFloat_proofs RainFloat_spec RainFloat_proofs NearbyFloat_spec NearbyFloat_proofs.
Import ListNotations.
Local Open Scope R_scope.
Local Notation length := List.length.

(** Every unfiltered step with moderate levels gives a number that is not
    negative and is the mixture of the two exact rain rates up to a relative
    error of 2^-28 and that of the power function; filtered steps are NaN. *)
Theorem C30_float_retrieval_mixes : forall (L : libm F64) cubic e (pref cmin cmax F : list F64) (len a b waa alpha : F64) thr ap T vl va vb vw vg,
  pow_accurate L e -> 0 <= e <= / 1000 -> length pref = T -> length cmin = T -> length cmax = T -> length F = T ->
  is_num a va -> is_num b vb -> is_num len vl -> is_num waa vw -> is_num alpha vg -> / 2 ^ 60 <= va <= 2 ^ 60 -> / 2 ^ 60 <= vl <= 2 ^ 60 -> / 2 <= vb <= 2 -> Rabs vw <= 2 ^ 10 -> 0 <= vg <= 1 ->
  exists rain, nearby_rainfall_retrival L cubic pref cmin cmax F len None None (Some (CScalar a)) (Some (CScalar b)) ap waa alpha thr = Ok rain /\ length rain = T /\
  forall t, (t < T)%nat -> (~ unfiltered F thr t -> get n_nan rain t = n_nan) /\
  (unfiltered F thr t -> forall p lo hi, is_num (get n_nan pref t) p -> is_num (get n_nan cmin t) lo -> is_num (get n_nan cmax t) hi -> Rabs p <= 2 ^ 10 -> Rabs lo <= 2 ^ 10 -> Rabs hi <= 2 ^ 10 ->
    measurable va vb vl (rain_attenuation p hi vw) -> measurable va vb vl (rain_attenuation p lo vw) ->
    let r_min := rain_of va vb vl (rain_attenuation p hi vw) in let r_max := rain_of va vb vl (rain_attenuation p lo vw) in
    exists v, is_num (get n_nan rain t) v /\ 0 <= v /\ Rabs (v - (vg * r_max + (1 - vg) * r_min)) <= (e + / 2 ^ 28) * (vg * r_max + (1 - vg) * r_min) + / 2 ^ 1040).
Proof. exact retrieval_num. Qed.
Print Assumptions C30_float_retrieval_mixes.

(** the levels of C30_case: attenuations of 4 and 8 dB on 2 km *)
Example C30_case_float : measurable 1 1 2 (rain_attenuation (-50) (-56) 2) /\ measurable 1 1 2 (rain_attenuation (-50) (-60) 2) /\ measurable 1 1 2 (rain_attenuation (-50) (-51) 2).
Proof.
  unfold rain_attenuation. rewrite (Rmax_right 0 (-50 - -56 - 2)), (Rmax_right 0 (-50 - -60 - 2)), (Rmax_left 0 (-50 - -51 - 2)) by lra.
  assert (K : forall x, 1 <= x <= 100 -> measurable 1 1 2 x).
  { intros x B. right. split; [simpl; lra|]. unfold rain_of. destruct (Req_EM_T x 0); [lra|]. replace (1 / 1) with 1 by lra. rewrite Rpower_1 by lra. simpl. lra. }
  split; [apply K; lra|split; [apply K; lra|left; reflexivity]].
Qed.

(** The exact mixture lies between the two rates.  The float64 one need not: with
    alpha = 0.1, two rates of 0.3 are mixed to a rate above 0.3. *)
Theorem C30_float_mix_above_both_refuted : let rate : F64 := f_div #3 #10 in
  exists rain, nearby_rainfall_retrival F64demo (fun _ _ x => x) [rate] [#0] [#0] [#0] #1 None None (Some (CScalar #1)) (Some (CScalar #1)) "ITU_2005" #0 (f_div #1 #10) None = Ok [rain] /\
  n_ltb rate rain = true.
Proof. cbv zeta. eexists. split; [reflexivity|]. vm_compute. reflexivity. Qed.
Print Assumptions C30_float_mix_above_both_refuted.
