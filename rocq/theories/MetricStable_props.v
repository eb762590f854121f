(** * Property C143: validation metrics of inaccurate series *)
From Coq Require Import Reals Lra Lia ZArith Bool List.
From Flocq Require Import Core.Raux.
From Verif Require Import Base Num NumF64 NumList RealSpec RealStat Stats_model Stats_spec NearbyRobust_spec MetricStable_spec MetricStable_proofs.
Import ListNotations.
Local Open Scope R_scope.
Local Notation length := List.length.

(** If the reference is off by at most [qr] and the prediction by at most [qp] at
    each step (with the same missing steps), the RMSE and the MAE are off by at most
    [qr + qp], the means by at most [qr] and [qp], the sums by that times the number of
    valid pairs, and the counts of missing pairs are the same. *)
Theorem C143_errors_exact : forall qr qp r r' p p' n t, length r = n -> length p = n -> close_records qr r r' -> close_records qp p p' -> valid_pairs r p <> [] ->
  exists e e', calc_rain_error_performance_metrics (mk_arr [n] r) (mk_arr [n] p) t = Ok e /\
  calc_rain_error_performance_metrics (mk_arr [n] r') (mk_arr [n] p') t = Ok e' /\
  reals_within (qr + qp) (root_mean_square_error e) (root_mean_square_error e') /\
  reals_within (qr + qp) (mean_absolute_error e) (mean_absolute_error e') /\
  reals_within qr (R_mean_reference e) (R_mean_reference e') /\ reals_within qp (R_mean_predicted e) (R_mean_predicted e') /\
  reals_within (INR (length (valid_pairs r p)) * qr) (R_sum_reference e) (R_sum_reference e') /\
  reals_within (INR (length (valid_pairs r p)) * qp) (R_sum_predicted e) (R_sum_predicted e') /\
  re_N_all_pairs e' = re_N_all_pairs e /\ re_N_nan_pairs e' = re_N_nan_pairs e /\
  re_N_nan_reference_only e' = re_N_nan_reference_only e /\ re_N_nan_predicted_only e' = re_N_nan_predicted_only e.
Proof. exact stable_errors. Qed.
Print Assumptions C143_errors_exact.

(** those bounds are reached: a prediction equal to the reference, and the same shifted by [q] *)
Theorem C143_errors_sharp_exact : forall q r n t, 0 <= q -> length r = n -> n <> 0%nat ->
  exists e e', calc_rain_error_performance_metrics (mk_arr [n] (ofR r)) (mk_arr [n] (ofR r)) t = Ok e /\
  calc_rain_error_performance_metrics (mk_arr [n] (ofR r)) (mk_arr [n] (ofR (map (fun x => x + q) r))) t = Ok e' /\
  close_records q (ofR r) (ofR (map (fun x => x + q) r)) /\
  root_mean_square_error e = (XFin 0 : XR) /\ root_mean_square_error e' = (XFin q : XR) /\
  mean_absolute_error e = (XFin 0 : XR) /\ mean_absolute_error e' = (XFin q : XR).
Proof. exact shifted_metrics. Qed.
Print Assumptions C143_errors_sharp_exact.

(** A prediction off by at most [d] changes the false wet rate by at most the share of
    the dry references whose prediction is within [d] of the threshold, and the missed
    wet rate likewise; if no prediction is that close to the threshold, the rates and
    the missed rain stay exactly the same. *)
Theorem C143_rates_exact : forall d r p p' ps n t, length r = n -> length p = n -> close_records d p p' -> real_pairs r p ps ->
  exists e e', calc_rain_error_performance_metrics (mk_arr [n] r) (mk_arr [n] p) (XFin t : XR) = Ok e /\
  calc_rain_error_performance_metrics (mk_arr [n] r) (mk_arr [n] p') (XFin t : XR) = Ok e' /\
  (count (ref_dry t) ps = 0%nat -> re_false_wet_rate e = (XNaN : XR) /\ re_false_wet_rate e' = (XNaN : XR)) /\
  (count (ref_dry t) ps <> 0%nat ->
     reals_within (INR (count (fun q => ref_dry t q && borderline d t q) ps) / INR (count (ref_dry t) ps)) (re_false_wet_rate e) (re_false_wet_rate e')) /\
  (count (ref_wet t) ps = 0%nat -> re_missed_wet_rate e = (XNaN : XR) /\ re_missed_wet_rate e' = (XNaN : XR)) /\
  (count (ref_wet t) ps <> 0%nat ->
     reals_within (INR (count (fun q => ref_wet t q && borderline d t q) ps) / INR (count (ref_wet t) ps)) (re_missed_wet_rate e) (re_missed_wet_rate e')) /\
  ((forall q, In q ps -> d < Rabs (snd q - t)) ->
     re_false_wet_rate e' = re_false_wet_rate e /\ re_missed_wet_rate e' = re_missed_wet_rate e /\ missed_wet_precipitation_rate e' = missed_wet_precipitation_rate e).
Proof. exact stable_rates. Qed.
Print Assumptions C143_rates_exact.

(** The correlation has no such bound: errors of any size [q], however small, can turn
    a correlation of 1 into one of -1. *)
Theorem C143_correlation_refuted : forall q t, 0 < q -> exists r p p' e e', close_records q p p' /\
  calc_rain_error_performance_metrics (mk_arr [2%nat] r) (mk_arr [2%nat] p) t = Ok e /\
  calc_rain_error_performance_metrics (mk_arr [2%nat] r) (mk_arr [2%nat] p') t = Ok e' /\
  pearson_correlation e = (XFin 1 : XR) /\ pearson_correlation e' = (XFin (-1) : XR).
Proof. exact correlation_unstable. Qed.
Print Assumptions C143_correlation_refuted.

Definition C143_rain (p : list F64) : list F64 :=
  match calc_rain_error_performance_metrics (mk_arr [4%nat] ([#0; #2; #4; fNaN] : list F64)) (mk_arr [4%nat] p) (f_div #3 #2) with
  | Ok e => [root_mean_square_error e; mean_absolute_error e; R_sum_predicted e; re_false_wet_rate e; re_missed_wet_rate e] | Err _ => [] end.
(** predictions 1, 2, 4 and the same half a unit higher and lower: the first is at distance 0.5 of the threshold 1.5 and stays dry, as does the second, which becomes missed *)
Example C143_case : f_same_list (C143_rain [#1; #2; #4; #7]) [f_sqrt (f_div #1 #3); f_div #1 #3; #7; #0; #0] = true /\
  f_same_list (C143_rain [f_div #3 #2; f_div #3 #2; #4; #7]) [f_sqrt (f_div (f_div #5 #2) #3); f_div #2 #3; #7; #0; f_div #1 #2] = true.
Proof. split; vm_compute; reflexivity. Qed.
