(** * Properties C107 and C108: symmetries of the validation metrics *)
From Coq Require Import List ZArith Bool Reals Lra Lia Permutation.
From Flocq Require Import Core.Raux.
From Verif Require Import Base Num NumF64 NumList RealSpec RealStat Stats_model Stats_spec MetricSym_proofs.
Import ListNotations.
Local Open Scope nat_scope.

(** ** C107: order of the pairs; exchanging reference and prediction *)
Theorem C107_order_of_pairs : forall (r p r' p' : list F64) n sh, length r = length p -> length r' = length p' ->
  Permutation (combine r p) (combine r' p') ->
  calc_wet_dry_performance_metrics (mk_arr (n :: sh) r) (mk_arr (n :: sh) p) =
  calc_wet_dry_performance_metrics (mk_arr (n :: sh) r') (mk_arr (n :: sh) p').
Proof. exact (fun r p r' p' n sh H1 H2 P => wd_perm r p r' p' H1 H2 P n sh). Qed.
Print Assumptions C107_order_of_pairs.

(** infinities and NaN included *)
Theorem C107_order_of_pairs_exact : forall (r p r' p' : list XR) n sh t, length r = length p -> length r' = length p' ->
  Permutation (combine r p) (combine r' p') ->
  calc_rain_error_performance_metrics (mk_arr (n :: sh) r) (mk_arr (n :: sh) p) t =
  calc_rain_error_performance_metrics (mk_arr (n :: sh) r') (mk_arr (n :: sh) p') t.
Proof. exact rain_perm. Qed.
Print Assumptions C107_order_of_pairs_exact.

(** rounding makes the float64 sums depend on the order: 2^53 + 1 + 1 *)
Theorem C107_order_of_pairs_float_refuted : exists (r p r' p' : list F64) e e', length r = 3 /\ length p = 3 /\
  Permutation (combine r p) (combine r' p') /\
  calc_rain_error_performance_metrics (mk_arr [3] r) (mk_arr [3] p) #1 = Ok e /\
  calc_rain_error_performance_metrics (mk_arr [3] r') (mk_arr [3] p') #1 = Ok e' /\
  n_ltb (R_sum_reference e) (R_sum_reference e') = true.
Proof.
  exists [#(2 ^ 53); #1; #1], [#0; #0; #0], [#1; #1; #(2 ^ 53)], [#0; #0; #0]. do 2 eexists.
  split; [reflexivity|]. split; [reflexivity|]. split.
  - cbn [combine]. eapply perm_trans; [apply perm_swap|]. apply perm_skip. apply perm_swap.
  - split; [reflexivity|]. split; [reflexivity|]. vm_compute. reflexivity.
Qed.
Print Assumptions C107_order_of_pairs_float_refuted.

Theorem C107_exchange : forall (r p : list F64) n t, length r = n -> length p = n -> (Z.of_nat n <= 2 ^ 53)%Z ->
  exists w w' e e',
  calc_wet_dry_performance_metrics (mk_arr [n] r) (mk_arr [n] p) = Ok w /\
  calc_wet_dry_performance_metrics (mk_arr [n] p) (mk_arr [n] r) = Ok w' /\
  calc_rain_error_performance_metrics (mk_arr [n] r) (mk_arr [n] p) t = Ok e /\
  calc_rain_error_performance_metrics (mk_arr [n] p) (mk_arr [n] r) t = Ok e' /\
  N_true_wet w' = N_true_wet w /\ N_true_dry w' = N_true_dry w /\
  N_false_wet w' = N_missed_wet w /\ N_missed_wet w' = N_false_wet w /\
  N_all_pairs w' = N_all_pairs w /\ N_nan_pairs w' = N_nan_pairs w /\
  N_nan_reference_only w' = N_nan_predicted_only w /\ N_nan_predicted_only w' = N_nan_reference_only w /\
  R_sum_reference e' = R_sum_predicted e /\ R_sum_predicted e' = R_sum_reference e /\
  R_mean_reference e' = R_mean_predicted e /\ R_mean_predicted e' = R_mean_reference e /\
  false_wet_precipitation_rate e' = missed_wet_precipitation_rate e /\
  missed_wet_precipitation_rate e' = false_wet_precipitation_rate e /\
  f_val (mean_absolute_error e') = f_val (mean_absolute_error e) /\
  f_val (root_mean_square_error e') = f_val (root_mean_square_error e).
Proof. exact metrics_swap. Qed.
Print Assumptions C107_exchange.

(** the rule for an all-dry prediction has no counterpart for an all-dry reference *)
Theorem C107_matthews_exchange_exact : forall (r p : list XR) n, length r = n -> length p = n ->
  exists w w', calc_wet_dry_performance_metrics (mk_arr [n] r) (mk_arr [n] p) = Ok w /\
  calc_wet_dry_performance_metrics (mk_arr [n] p) (mk_arr [n] r) = Ok w' /\
  (N_wet_reference w <> 0 -> N_wet_reference w' <> 0 -> wd_matthews_correlation w' = wd_matthews_correlation w) /\
  (N_wet_reference w <> 0 -> N_wet_reference w' = 0 -> wd_matthews_correlation w = XFin 0 /\ wd_matthews_correlation w' = XNaN) /\
  (N_wet_reference w = 0 -> N_wet_reference w' = 0 -> wd_matthews_correlation w = XFin 0 /\ wd_matthews_correlation w' = XFin 0).
Proof. exact matthews_swap. Qed.
Print Assumptions C107_matthews_exchange_exact.

Definition C107_wd (r p : list F64) : option (nat * nat * nat * nat * F64) :=
  match calc_wet_dry_performance_metrics (mk_arr [length r] r) (mk_arr [length r] p) with
  | Ok w => Some (N_true_wet w, N_true_dry w, N_false_wet w, N_missed_wet w, wd_matthews_correlation w) | Err _ => None end.
(** an all-dry prediction scores 0, an all-dry reference NaN *)
Example C107_case : match C107_wd [#1; #2; #0; fNaN; #3] [#0; #0; #0; #0; #0], C107_wd [#0; #0; #0; #0; #0] [#1; #2; #0; fNaN; #3],
    C107_wd [#1; #2; #0; #0; #5] [#0; #1; #1; #0; #5], C107_wd [#5; #0; #0; #2; #1] [#5; #0; #1; #1; #0] with
  | Some (0, 1, 0, 3, m1), Some (0, 1, 3, 0, m2), Some (2, 1, 1, 1, m3), Some (2, 1, 1, 1, m4) =>
    f_same_list [m1; m2] [#0; fNaN] && f_same_list [m3] [m4]
  | _, _, _, _ => false end = true.
Proof. vm_compute. reflexivity. Qed.

(** ** C108: unit of the rain rate *)
Theorem C108_unit_of_rain_rate_exact : forall c, (0 < c)%R -> forall (r p : list XR) n t, length r = n -> length p = n ->
  let s := fun x : XR => n_mul (XFin c : XR) x in
  exists e e', calc_rain_error_performance_metrics (mk_arr [n] r) (mk_arr [n] p) t = Ok e /\
  calc_rain_error_performance_metrics (mk_arr [n] (map s r)) (mk_arr [n] (map s p)) (s t) = Ok e' /\
  pearson_correlation e' = pearson_correlation e /\ coefficient_of_variation e' = coefficient_of_variation e /\
  root_mean_square_error e' = s (root_mean_square_error e) /\ mean_absolute_error e' = s (mean_absolute_error e) /\
  R_sum_reference e' = s (R_sum_reference e) /\ R_sum_predicted e' = s (R_sum_predicted e) /\
  R_mean_reference e' = s (R_mean_reference e) /\ R_mean_predicted e' = s (R_mean_predicted e) /\
  re_false_wet_rate e' = re_false_wet_rate e /\ re_missed_wet_rate e' = re_missed_wet_rate e /\
  false_wet_precipitation_rate e' = s (false_wet_precipitation_rate e) /\
  missed_wet_precipitation_rate e' = s (missed_wet_precipitation_rate e) /\
  re_N_nan_pairs e' = re_N_nan_pairs e /\ re_N_all_pairs e' = re_N_all_pairs e.
Proof. exact rain_unit. Qed.
Print Assumptions C108_unit_of_rain_rate_exact.

(** all values doubled, threshold doubled: correlation and rates unchanged, errors and sums doubled *)
Example C108_case : exists e e',
  calc_rain_error_performance_metrics (mk_arr [4] [#0; #1; fNaN; #5]) (mk_arr [4] [#2; #0; #1; #3]) #1 = Ok e /\
  calc_rain_error_performance_metrics (mk_arr [4] [#0; #2; fNaN; #10]) (mk_arr [4] [#4; #0; #2; #6]) #2 = Ok e' /\
  f_same_list [pearson_correlation e'; coefficient_of_variation e'; re_false_wet_rate e'; re_missed_wet_rate e'; R_sum_reference e'; false_wet_precipitation_rate e'; mean_absolute_error e']
    [pearson_correlation e; coefficient_of_variation e; f_div #1 #2; #0; #12; #4; n_mul (#2 : F64) (mean_absolute_error e)] = true.
Proof. do 2 eexists. split; [reflexivity|]. split; [reflexivity|]. vm_compute. reflexivity. Qed.
