(** * Property C117: metrics of joined records *)
From Coq Require Import List ZArith Bool Reals Lra Lia.
From Flocq Require Import Core.Raux.
From Verif Require Import Base Num NumF64 NumList RealSpec RealStat Stats_model Stats_spec MetricPool_spec Stats_props MetricPool_proofs.
Import ListNotations.
Local Open Scope nat_scope.

Theorem C117_counts_add : forall (r1 p1 r2 p2 : list F64) n1 n2,
  length r1 = n1 -> length p1 = n1 -> length r2 = n2 -> length p2 = n2 ->
  exists w1 w2 w,
  calc_wet_dry_performance_metrics (mk_arr [n1] r1) (mk_arr [n1] p1) = Ok w1 /\
  calc_wet_dry_performance_metrics (mk_arr [n2] r2) (mk_arr [n2] p2) = Ok w2 /\
  calc_wet_dry_performance_metrics (mk_arr [n1 + n2] (r1 ++ r2)) (mk_arr [n1 + n2] (p1 ++ p2)) = Ok w /\
  N_true_wet w = N_true_wet w1 + N_true_wet w2 /\ N_true_dry w = N_true_dry w1 + N_true_dry w2 /\
  N_false_wet w = N_false_wet w1 + N_false_wet w2 /\ N_missed_wet w = N_missed_wet w1 + N_missed_wet w2 /\
  N_wet_reference w = N_wet_reference w1 + N_wet_reference w2 /\ N_dry_reference w = N_dry_reference w1 + N_dry_reference w2 /\
  N_all_pairs w = N_all_pairs w1 + N_all_pairs w2 /\ N_nan_pairs w = N_nan_pairs w1 + N_nan_pairs w2 /\
  N_nan_reference_only w = N_nan_reference_only w1 + N_nan_reference_only w2 /\
  N_nan_predicted_only w = N_nan_predicted_only w1 + N_nan_predicted_only w2.
Proof. exact pool_counts. Qed.
Print Assumptions C117_counts_add.

Theorem C117_rates_between : forall (r1 p1 r2 p2 : list F64) n1 n2,
  length r1 = n1 -> length p1 = n1 -> length r2 = n2 -> length p2 = n2 -> (Z.of_nat (n1 + n2) <= 2 ^ 53)%Z ->
  exists w1 w2 w,
  calc_wet_dry_performance_metrics (mk_arr [n1] r1) (mk_arr [n1] p1) = Ok w1 /\
  calc_wet_dry_performance_metrics (mk_arr [n2] r2) (mk_arr [n2] p2) = Ok w2 /\
  calc_wet_dry_performance_metrics (mk_arr [n1 + n2] (r1 ++ r2)) (mk_arr [n1 + n2] (p1 ++ p2)) = Ok w /\
  (N_wet_reference w1 <> 0 -> N_wet_reference w2 <> 0 ->
    lies_between (wd_true_wet_rate w1) (wd_true_wet_rate w2) (wd_true_wet_rate w) /\
    lies_between (wd_missed_wet_rate w1) (wd_missed_wet_rate w2) (wd_missed_wet_rate w)) /\
  (N_dry_reference w1 <> 0 -> N_dry_reference w2 <> 0 ->
    lies_between (wd_true_dry_rate w1) (wd_true_dry_rate w2) (wd_true_dry_rate w) /\
    lies_between (wd_false_wet_rate w1) (wd_false_wet_rate w2) (wd_false_wet_rate w)) /\
  (N_wet_reference w2 = 0 -> wd_true_wet_rate w = wd_true_wet_rate w1 /\ wd_missed_wet_rate w = wd_missed_wet_rate w1) /\
  (N_dry_reference w2 = 0 -> wd_true_dry_rate w = wd_true_dry_rate w1 /\ wd_false_wet_rate w = wd_false_wet_rate w1).
Proof. exact (pool_rates F64sem). Qed.
Print Assumptions C117_rates_between.

(** the Matthews coefficient is not between: positive in both halves, negative in the whole.
    First half 1 hit, 1 correct dry, 5 false alarms; second half 1 hit, 1 correct dry, 5 misses *)
Theorem C117_matthews_between_refuted : exists (r1 p1 r2 p2 : list F64) w1 w2 w,
  calc_wet_dry_performance_metrics (mk_arr [7] r1) (mk_arr [7] p1) = Ok w1 /\
  calc_wet_dry_performance_metrics (mk_arr [7] r2) (mk_arr [7] p2) = Ok w2 /\
  calc_wet_dry_performance_metrics (mk_arr [14] (r1 ++ r2)) (mk_arr [14] (p1 ++ p2)) = Ok w /\
  n_ltb zero (wd_matthews_correlation w1) = true /\ n_ltb zero (wd_matthews_correlation w2) = true /\
  n_ltb (wd_matthews_correlation w) zero = true.
Proof.
  exists [#1; #0; #0; #0; #0; #0; #0], [#1; #0; #1; #1; #1; #1; #1], [#1; #0; #1; #1; #1; #1; #1], [#1; #0; #0; #0; #0; #0; #0].
  do 3 eexists. do 3 (split; [reflexivity|]). repeat split; vm_compute; reflexivity.
Qed.
Print Assumptions C117_matthews_between_refuted.

Theorem C117_sums_add_exact : forall (r1 p1 r2 p2 : list XR) n1 n2 t,
  length r1 = n1 -> length p1 = n1 -> length r2 = n2 -> length p2 = n2 ->
  exists e1 e2 e,
  calc_rain_error_performance_metrics (mk_arr [n1] r1) (mk_arr [n1] p1) t = Ok e1 /\
  calc_rain_error_performance_metrics (mk_arr [n2] r2) (mk_arr [n2] p2) t = Ok e2 /\
  calc_rain_error_performance_metrics (mk_arr [n1 + n2] (r1 ++ r2)) (mk_arr [n1 + n2] (p1 ++ p2)) t = Ok e /\
  R_sum_reference e = n_add (R_sum_reference e1) (R_sum_reference e2) /\
  R_sum_predicted e = n_add (R_sum_predicted e1) (R_sum_predicted e2).
Proof. exact pool_sums. Qed.
Print Assumptions C117_sums_add_exact.

(** mean absolute error and mean rain rates are averages weighted with the numbers of valid pairs,
    the root mean square error in the squares *)
Theorem C117_errors_are_weighted_exact : forall (r1 p1 r2 p2 : list XR) ps qs n1 n2 t,
  length r1 = n1 -> length p1 = n1 -> length r2 = n2 -> length p2 = n2 ->
  real_pairs r1 p1 ps -> real_pairs r2 p2 qs -> ps <> [] -> qs <> [] ->
  exists e1 e2 e,
  calc_rain_error_performance_metrics (mk_arr [n1] r1) (mk_arr [n1] p1) t = Ok e1 /\
  calc_rain_error_performance_metrics (mk_arr [n2] r2) (mk_arr [n2] p2) t = Ok e2 /\
  calc_rain_error_performance_metrics (mk_arr [n1 + n2] (r1 ++ r2)) (mk_arr [n1 + n2] (p1 ++ p2)) t = Ok e /\
  let N1 := INR (n1 - re_N_nan_pairs e1) in let N2 := INR (n2 - re_N_nan_pairs e2) in
  (0 < N1 /\ 0 < N2)%R /\
  (forall metric, metric = @mean_absolute_error XR \/ metric = @R_mean_reference XR \/ metric = @R_mean_predicted XR ->
    exists x1 x2 x, metric e1 = XFin x1 /\ metric e2 = XFin x2 /\ metric e = XFin x /\ ((N1 + N2) * x = N1 * x1 + N2 * x2)%R) /\
  exists x1 x2 x, root_mean_square_error e1 = XFin x1 /\ root_mean_square_error e2 = XFin x2 /\ root_mean_square_error e = XFin x /\
    ((N1 + N2) * (x * x) = N1 * (x1 * x1) + N2 * (x2 * x2))%R /\ (Rmin x1 x2 <= x <= Rmax x1 x2)%R.
Proof. exact pool_errors. Qed.
Print Assumptions C117_errors_are_weighted_exact.

(** the record of C50 joined with itself: all counts double *)
Example C117_case : exists w, calc_wet_dry_performance_metrics (mk_arr [12] (ref0 ++ ref0)) (mk_arr [12] (pred0 ++ pred0)) = Ok w /\
  (N_true_wet w, N_true_dry w, N_false_wet w, N_missed_wet w) = (2, 2, 2, 2) /\
  (N_all_pairs w, N_nan_pairs w, N_nan_reference_only w, N_nan_predicted_only w) = (12, 4, 2, 2).
Proof. eexists. split; [reflexivity|]. split; vm_compute; reflexivity. Qed.
(** errors 1 in the first record (with one missing pair), 3 and 3 in the second: mean absolute error 7/3 *)
Example C117_case_errors : exists e1 e2 e,
  calc_rain_error_performance_metrics (mk_arr [2] [XFin 1; XNaN]) (mk_arr [2] [XFin 2; XFin 5]) (XFin 0 : XR) = Ok e1 /\
  calc_rain_error_performance_metrics (mk_arr [2] [XFin 1; XFin 0]) (mk_arr [2] [XFin 4; XFin 3]) (XFin 0 : XR) = Ok e2 /\
  calc_rain_error_performance_metrics (mk_arr [4] [XFin 1; XNaN; XFin 1; XFin 0]) (mk_arr [4] [XFin 2; XFin 5; XFin 4; XFin 3]) (XFin 0 : XR) = Ok e /\
  exists x1 x2 x, mean_absolute_error e1 = XFin x1 /\ mean_absolute_error e2 = XFin x2 /\ mean_absolute_error e = XFin x /\
  ((1 + 2) * x = 1 * x1 + 2 * x2)%R.
Proof.
  destruct (C117_errors_are_weighted_exact [XFin 1; XNaN] [XFin 2; XFin 5] [XFin 1; XFin 0] [XFin 4; XFin 3] [(1, 2)%R] [(1, 4)%R; (0, 3)%R] 2 2 (XFin 0))
    as (e1 & e2 & e & H1 & H2 & H & _ & M & _); try reflexivity; try discriminate.
  exists e1, e2, e. do 3 (split; [assumption|]). destruct (M _ (or_introl eq_refl)) as (x1 & x2 & x & K1 & K2 & K & KW).
  exists x1, x2, x. do 3 (split; [assumption|]).
  assert (N1 : re_N_nan_pairs e1 = 1) by (injection H1 as H1; rewrite <- H1; reflexivity).
  assert (N2 : re_N_nan_pairs e2 = 0) by (injection H2 as H2; rewrite <- H2; reflexivity).
  rewrite N1, N2 in KW. cbn in KW. lra.
Qed.
