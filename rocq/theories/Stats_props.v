(** * Properties C50-C55, C87-C91: validation metrics *)
From Coq Require Import List ZArith Bool Reals Lra Lia.
From Flocq Require Import Core.Raux.
From Verif Require Import Base Num NumF64 NumList RealSpec RealStat Stats_model Stats_spec Stats_proofs Stats_proofs2 Stats_proofs3 Stats_proofs4.
Import ListNotations.
Local Open Scope nat_scope.

Theorem C50_counts_add_up : forall (r p : list F64) n, length r = n -> length p = n ->
  exists w, calc_wet_dry_performance_metrics (mk_arr [n] r) (mk_arr [n] p) = Ok w /\
  let ps := valid_pairs r p in
  N_true_wet w = count (true_wet zero) ps /\ N_true_dry w = count (true_dry zero) ps /\
  N_false_wet w = count (false_wet zero) ps /\ N_missed_wet w = count (missed_wet zero) ps /\
  N_nan_reference_only w = count n_isnan r /\ N_nan_predicted_only w = count n_isnan p /\ N_all_pairs w = n /\
  N_true_wet w + N_missed_wet w = N_wet_reference w /\ N_true_dry w + N_false_wet w = N_dry_reference w /\
  N_true_wet w + N_true_dry w + N_false_wet w + N_missed_wet w + N_nan_pairs w = N_all_pairs w /\
  N_nan_reference_only w <= N_nan_pairs w /\ N_nan_predicted_only w <= N_nan_pairs w /\
  N_nan_pairs w <= N_nan_reference_only w + N_nan_predicted_only w.
Proof. exact wd_counts. Qed.
Print Assumptions C50_counts_add_up.

Theorem C50_unequal_shapes : forall a b : ndarr F64, nd_shape a <> nd_shape b ->
  calc_wet_dry_performance_metrics a b = Err AssertionError /\ forall t, calc_rain_error_performance_metrics a b t = Err AssertionError.
Proof. exact (fun a b H => conj (wd_shapes a b H) (fun t => rain_shapes a b t H)). Qed.
Print Assumptions C50_unequal_shapes.

(** wet, wet, dry, NaN, dry, dry against wet, dry, wet, wet, NaN, dry *)
Definition ref0 : list F64 := [#1; #2; #0; fNaN; #0; #(-1)].
Definition pred0 : list F64 := [#3; #0; #1; #1; fNaN; #0].
Example C50_case : exists w, calc_wet_dry_performance_metrics (mk_arr [6] ref0) (mk_arr [6] pred0) = Ok w /\
  (N_true_wet w, N_true_dry w, N_false_wet w, N_missed_wet w) = (1, 1, 1, 1) /\
  (N_all_pairs w, N_nan_pairs w, N_nan_reference_only w, N_nan_predicted_only w) = (6, 2, 1, 1).
Proof. eexists. split; [reflexivity|]. split; vm_compute; reflexivity. Qed.

(** ** arrays with more than one dimension *)
Theorem C87_all_pairs_counts_rows : forall (r p : list F64) n sh, length r = length p -> length r = n * fold_right Nat.mul 1 sh ->
  exists w, calc_wet_dry_performance_metrics (mk_arr (n :: sh) r) (mk_arr (n :: sh) p) = Ok w /\
  N_true_wet w + N_true_dry w + N_false_wet w + N_missed_wet w + N_nan_pairs w = n * fold_right Nat.mul 1 sh /\ N_all_pairs w = n.
Proof. exact wd_counts_nd. Qed.
Print Assumptions C87_all_pairs_counts_rows.

(** the documented meaning, number of all pairs, fails for a 1 x 6 array *)
Theorem C87_number_of_all_pairs_refuted : exists (r p : ndarr F64) w, length (nd_data r) = length (nd_data p) /\
  calc_wet_dry_performance_metrics r p = Ok w /\ N_all_pairs w <> length (nd_data r) /\ N_nan_pairs w > N_all_pairs w.
Proof.
  exists (mk_arr [1; 6] ref0), (mk_arr [1; 6] pred0). eexists. split; [reflexivity|]. split; [reflexivity|]. split; vm_compute; [discriminate|lia].
Qed.
Print Assumptions C87_number_of_all_pairs_refuted.

(** ** rates *)
Theorem C51_rates_complementary_exact : forall (r p : list XR) n, length r = n -> length p = n ->
  exists w, calc_wet_dry_performance_metrics (mk_arr [n] r) (mk_arr [n] p) = Ok w /\
  (N_wet_reference w = 0 -> wd_true_wet_rate w = XNaN /\ wd_missed_wet_rate w = XNaN) /\
  (N_wet_reference w <> 0 -> exists x, wd_true_wet_rate w = XFin x /\ wd_missed_wet_rate w = XFin (1 - x)%R /\ (0 <= x <= 1)%R /\
     x = (INR (N_true_wet w) / INR (N_wet_reference w))%R) /\
  (N_dry_reference w = 0 -> wd_true_dry_rate w = XNaN /\ wd_false_wet_rate w = XNaN) /\
  (N_dry_reference w <> 0 -> exists x, wd_true_dry_rate w = XFin x /\ wd_false_wet_rate w = XFin (1 - x)%R /\ (0 <= x <= 1)%R /\
     x = (INR (N_true_dry w) / INR (N_dry_reference w))%R).
Proof. exact wd_rates. Qed.
Print Assumptions C51_rates_complementary_exact.

Example C51_case : exists w, calc_wet_dry_performance_metrics (mk_arr [6] ref0) (mk_arr [6] pred0) = Ok w /\
  f_same_list [wd_true_wet_rate w; wd_missed_wet_rate w; wd_true_dry_rate w; wd_false_wet_rate w] [f_div #1 #2; f_div #1 #2; f_div #1 #2; f_div #1 #2] = true.
Proof. eexists. split; [reflexivity|]. vm_compute. reflexivity. Qed.

(** ** Matthews correlation *)
Theorem C52_matthews_exact : forall (r p : list XR) n, length r = n -> length p = n ->
  exists w, calc_wet_dry_performance_metrics (mk_arr [n] r) (mk_arr [n] p) = Ok w /\
  let tp := N_true_wet w in let tn := N_true_dry w in let fp := N_false_wet w in let fn := N_missed_wet w in
  let m := wd_matthews_correlation w in
  (tp + fp = 0 -> m = XFin 0) /\
  (tp + fp <> 0 -> tp + fn = 0 \/ tn + fp = 0 \/ tn + fn = 0 -> m = XNaN) /\
  (tp + fp <> 0 -> tp + fn <> 0 -> tn + fp <> 0 -> tn + fn <> 0 ->
     m = XFin (mcc_real (INR tp) (INR tn) (INR fp) (INR fn)) /\ (-1 <= mcc_real (INR tp) (INR tn) (INR fp) (INR fn) <= 1)%R) /\
  (fp = 0 -> fn = 0 -> tp <> 0 -> tn <> 0 -> m = XFin 1) /\
  (tp = 0 -> tn = 0 -> fp <> 0 -> fn <> 0 -> m = XFin (-1)).
Proof. exact wd_matthews. Qed.
Print Assumptions C52_matthews_exact.

(** in float64, for up to 2^26 pairs: never infinite, NaN in exactly these cases *)
Theorem C52_matthews_float : forall (r p : list F64) n, length r = n -> length p = n -> (Z.of_nat n <= 2 ^ 26)%Z ->
  exists w, calc_wet_dry_performance_metrics (mk_arr [n] r) (mk_arr [n] p) = Ok w /\
  let tp := N_true_wet w in let tn := N_true_dry w in let fp := N_false_wet w in let fn := N_missed_wet w in
  let m := wd_matthews_correlation w in
  n_isinf m = false /\ (tp + fp = 0 -> m = n_ofZ 0) /\
  (n_isnan m = true <-> tp + fp <> 0 /\ (tp + fn = 0 \/ tn + fp = 0 \/ tn + fn = 0)) /\
  (tp + fp <> 0 -> m = matthews tp tn fp fn).
Proof. exact (wd_matthews_float F64sem). Qed.
Print Assumptions C52_matthews_float.

(** balanced table: 0; perfect prediction: 1; inverted: -1; everything predicted wet: NaN; nothing predicted wet: 0 *)
Definition mcc_of (r p : list F64) : F64 :=
  match calc_wet_dry_performance_metrics (mk_arr [length r] r) (mk_arr [length r] p) with Ok w => wd_matthews_correlation w | Err _ => #99 end.
Example C52_case : f_same_list [mcc_of ref0 pred0; mcc_of [#1; #0] [#1; #0]; mcc_of [#1; #0] [#0; #1]; mcc_of [#1; #0] [#1; #1]; mcc_of [#1; #0] [#0; #0]]
  [#0; #1; #(-1); fNaN; #0] = true.
Proof. vm_compute. reflexivity. Qed.

(** ** rain metrics *)
Theorem C53_threshold_is_strict : forall (r p : list F64) n t, length r = n -> length p = n ->
  exists e, calc_rain_error_performance_metrics (mk_arr [n] r) (mk_arr [n] p) t = Ok e /\
  let ps := valid_pairs r p in
  re_false_wet_rate e = n_div (n_count (count (fun q => negb (n_ltb t (fst q)) && n_ltb t (snd q)) ps)) (n_count (count (fun q => negb (n_ltb t (fst q))) ps)) /\
  re_missed_wet_rate e = n_div (n_count (count (fun q => n_ltb t (fst q) && negb (n_ltb t (snd q))) ps)) (n_count (count (fun q => n_ltb t (fst q)) ps)).
Proof. exact rain_rates. Qed.
Print Assumptions C53_threshold_is_strict.

(** away from the threshold the documented comparison gives the same rates *)
Theorem C53_documented_away_from_threshold : forall (r p : list F64) n t, length r = n -> length p = n -> n_isnan t = false ->
  (forall x, In x r \/ In x p -> n_eqb x t = false) ->
  exists e, calc_rain_error_performance_metrics (mk_arr [n] r) (mk_arr [n] p) t = Ok e /\
  let ps := valid_pairs r p in
  re_false_wet_rate e = n_div (n_count (count (fun q => negb (n_leb t (fst q)) && n_leb t (snd q)) ps)) (n_count (count (fun q => negb (n_leb t (fst q))) ps)) /\
  re_missed_wet_rate e = n_div (n_count (count (fun q => n_leb t (fst q) && negb (n_leb t (snd q))) ps)) (n_count (count (fun q => n_leb t (fst q)) ps)).
Proof. exact (rain_rates_documented F64sem). Qed.
Print Assumptions C53_documented_away_from_threshold.

(** reference 1 and prediction 2 at threshold 1: documented as a hit, counted as a false alarm *)
Theorem C53_documented_threshold_refuted : exists (r p : list F64) t e,
  calc_rain_error_performance_metrics (mk_arr [1] r) (mk_arr [1] p) t = Ok e /\ length r = 1 /\ length p = 1 /\
  n_eqb (re_false_wet_rate e) #1 = true /\
  n_isnan (n_div (n_count (count (fun q => negb (n_leb t (fst q)) && n_leb t (snd q)) (valid_pairs r p)) : F64)
                 (n_count (count (fun q => negb (n_leb t (fst q))) (valid_pairs r p)))) = true.
Proof. exists [#1], [#2], #1. eexists. split; [reflexivity|]. repeat split; vm_compute; reflexivity. Qed.
Print Assumptions C53_documented_threshold_refuted.

Example C53_case : exists e, calc_rain_error_performance_metrics (mk_arr [6] ref0) (mk_arr [6] pred0) #1 = Ok e /\
  f_same_list [re_false_wet_rate e; re_missed_wet_rate e; false_wet_precipitation_rate e; missed_wet_precipitation_rate e] [f_div #1 #3; #1; #3; #2] = true.
Proof. eexists. split; [reflexivity|]. vm_compute. reflexivity. Qed.

Theorem C54_only_valid_pairs_matter : forall (r p r' p' : list F64) n n' t, length r = n -> length p = n -> length r' = n' -> length p' = n' ->
  valid_pairs r p = valid_pairs r' p' ->
  exists e e', calc_rain_error_performance_metrics (mk_arr [n] r) (mk_arr [n] p) t = Ok e /\
  calc_rain_error_performance_metrics (mk_arr [n'] r') (mk_arr [n'] p') t = Ok e' /\
  pearson_correlation e = pearson_correlation e' /\ coefficient_of_variation e = coefficient_of_variation e' /\
  root_mean_square_error e = root_mean_square_error e' /\ mean_absolute_error e = mean_absolute_error e' /\
  R_sum_reference e = R_sum_reference e' /\ R_sum_predicted e = R_sum_predicted e' /\
  R_mean_reference e = R_mean_reference e' /\ R_mean_predicted e = R_mean_predicted e' /\
  re_false_wet_rate e = re_false_wet_rate e' /\ re_missed_wet_rate e = re_missed_wet_rate e' /\
  false_wet_precipitation_rate e = false_wet_precipitation_rate e' /\ missed_wet_precipitation_rate e = missed_wet_precipitation_rate e' /\
  re_N_all_pairs e - re_N_nan_pairs e = re_N_all_pairs e' - re_N_nan_pairs e'.
Proof. exact rain_valid_only. Qed.
Print Assumptions C54_only_valid_pairs_matter.

Theorem C54_errors_exact : forall r p ps n t, length r = n -> length p = n -> real_pairs r p ps -> ps <> [] ->
  exists e, calc_rain_error_performance_metrics (mk_arr [n] r) (mk_arr [n] p) t = Ok e /\
  mean_absolute_error e = (XFin (MAE ps) : XR) /\ root_mean_square_error e = (XFin (RMSE ps) : XR) /\
  R_mean_reference e = (XFin (rmean (map fst ps)) : XR) /\ R_mean_predicted e = (XFin (rmean (map snd ps)) : XR) /\
  R_sum_reference e = (XFin (INR (length ps) * rmean (map fst ps)) : XR) /\ R_sum_predicted e = (XFin (INR (length ps) * rmean (map snd ps)) : XR) /\
  (0 <= MAE ps <= RMSE ps)%R /\
  (RMSE ps = 0 <-> (forall q, In q ps -> fst q = snd q))%R /\ (MAE ps = 0 <-> (forall q, In q ps -> fst q = snd q))%R /\
  (Rabs (rmean (map snd ps) - rmean (map fst ps)) <= MAE ps)%R.
Proof. exact rain_errors. Qed.
Print Assumptions C54_errors_exact.

(** arrays without infinities always have such a list of real pairs *)
Theorem C54_real_pairs_exist : forall r p, no_inf r -> no_inf p -> exists ps, real_pairs r p ps.
Proof. exact real_pairs_exist. Qed.
Print Assumptions C54_real_pairs_exist.

(** valid pairs (1,3) (2,0) (0,1) (-1,0): errors 2, -2, 1, 1 *)
Example C54_case : exists e, calc_rain_error_performance_metrics (mk_arr [6] ref0) (mk_arr [6] pred0) #1 = Ok e /\
  f_same_list [mean_absolute_error e; root_mean_square_error e; R_sum_reference e; R_mean_predicted e] [f_div #3 #2; n_sqrt (f_div #5 #2 : F64); #2; #1] = true.
Proof. eexists. split; [reflexivity|]. vm_compute. reflexivity. Qed.

(** RMSE^2 = bias^2 + (CV * mean reference)^2 *)
Theorem C89_rmse_decomposition_exact : forall r p ps n t, length r = n -> length p = n -> real_pairs r p ps -> ps <> [] -> rmean (map fst ps) <> 0%R ->
  exists e rm cv mr mp, calc_rain_error_performance_metrics (mk_arr [n] r) (mk_arr [n] p) t = Ok e /\
  root_mean_square_error e = (XFin rm : XR) /\ coefficient_of_variation e = (XFin cv : XR) /\
  R_mean_reference e = (XFin mr : XR) /\ R_mean_predicted e = (XFin mp : XR) /\
  (rm ^ 2 = (mp - mr) ^ 2 + (cv * mr) ^ 2)%R.
Proof. exact rain_decomposition. Qed.
Print Assumptions C89_rmse_decomposition_exact.

(** errors 4 and 0 around mean reference 2: RMSE^2 = 8, bias 2, CV = 2/2 = 1 *)
Example C89_case : exists e, calc_rain_error_performance_metrics (mk_arr [2] [#1; #3]) (mk_arr [2] [#5; #3]) #1 = Ok e /\
  f_same_list [root_mean_square_error e; coefficient_of_variation e; R_mean_reference e; R_mean_predicted e] [n_sqrt (#8 : F64); #1; #2; #4] = true.
Proof. eexists. split; [reflexivity|]. vm_compute. reflexivity. Qed.

(** ** Pearson correlation *)
Theorem C88_pearson_range : forall (r p : list F64) n t, length r = n -> length p = n ->
  exists e, calc_rain_error_performance_metrics (mk_arr [n] r) (mk_arr [n] p) t = Ok e /\
  (n_isnan (pearson_correlation e) = true \/ (n_leb (n_ofZ (-1)) (pearson_correlation e) = true /\ n_leb (pearson_correlation e) (n_ofZ 1) = true)).
Proof. exact (rain_pearson_range F64sem). Qed.
Print Assumptions C88_pearson_range.

Theorem C88_pearson_exact : forall r p ps n t, length r = n -> length p = n -> real_pairs r p ps -> ps <> [] ->
  exists e, calc_rain_error_performance_metrics (mk_arr [n] r) (mk_arr [n] p) t = Ok e /\
  (sxx (map fst ps) = 0 \/ sxx (map snd ps) = 0 -> pearson_correlation e = XNaN)%R /\
  (sxx (map fst ps) <> 0 -> sxx (map snd ps) <> 0 -> pearson_correlation e = XFin (pearson_real ps) /\ -1 <= pearson_real ps <= 1)%R /\
  (forall a b, a <> 0 -> sxx (map fst ps) <> 0 -> (forall q, In q ps -> snd q = a * fst q + b) ->
     pearson_correlation e = XFin (if Rlt_bool 0 a then 1 else -1))%R.
Proof. exact rain_pearson. Qed.
Print Assumptions C88_pearson_exact.

Theorem C88_no_variation_means_constant : forall l, (sxx l = 0 <-> forall x, In x l -> x = rmean l)%R.
Proof. exact sxx_zero_iff. Qed.
Print Assumptions C88_no_variation_means_constant.

Definition pearson_of (r p : list F64) : F64 :=
  match calc_rain_error_performance_metrics (mk_arr [length r] r) (mk_arr [length r] p) #1 with Ok e => pearson_correlation e | Err _ => #99 end.
Example C88_case : f_same_list [pearson_of [#1; #2; #3] [#7; #5; #3]; pearson_of [#1; #2; #3] [#5; #7; #9]; pearson_of [#1; #1] [#5; #7]; pearson_of [#1; fNaN] [#5; #7]; pearson_of [] []]
  [#(-1); #1; fNaN; fNaN; fNaN] = true.
Proof. vm_compute. reflexivity. Qed.

(** ** agreement of the metrics with each other *)
Theorem C90_rain_metrics_with_threshold_zero : forall (r p : list F64) n, length r = n -> length p = n ->
  exists e w, calc_rain_error_performance_metrics (mk_arr [n] r) (mk_arr [n] p) zero = Ok e /\
  calc_wet_dry_performance_metrics (mk_arr [n] r) (mk_arr [n] p) = Ok w /\
  re_false_wet_rate e = wd_false_wet_rate w /\ re_missed_wet_rate e = wd_missed_wet_rate w /\
  re_N_all_pairs e = N_all_pairs w /\ re_N_nan_pairs e = N_nan_pairs w /\
  re_N_nan_reference_only e = N_nan_reference_only w /\ re_N_nan_predicted_only e = N_nan_predicted_only w.
Proof. exact rain_wd_agree. Qed.
Print Assumptions C90_rain_metrics_with_threshold_zero.

Example C90_case : exists e, calc_rain_error_performance_metrics (mk_arr [6] ref0) (mk_arr [6] pred0) #0 = Ok e /\
  f_same_list [re_false_wet_rate e; re_missed_wet_rate e] [f_div #1 #2; f_div #1 #2] = true.
Proof. eexists. split; [reflexivity|]. vm_compute. reflexivity. Qed.

Theorem C91_rain_of_false_and_missed_wet_exact : forall r p ps n t, length r = n -> length p = n -> real_pairs r p ps ->
  exists e, calc_rain_error_performance_metrics (mk_arr [n] r) (mk_arr [n] p) (XFin t : XR) = Ok e /\
  (filter (fw t) ps = [] -> false_wet_precipitation_rate e = XNaN) /\
  (filter (fw t) ps <> [] -> false_wet_precipitation_rate e = XFin (rmean (map snd (filter (fw t) ps))) /\ t < rmean (map snd (filter (fw t) ps)))%R /\
  (filter (mw t) ps = [] -> missed_wet_precipitation_rate e = XNaN) /\
  (filter (mw t) ps <> [] -> missed_wet_precipitation_rate e = XFin (rmean (map fst (filter (mw t) ps))) /\ t < rmean (map fst (filter (mw t) ps)))%R.
Proof. exact rain_precip. Qed.
Print Assumptions C91_rain_of_false_and_missed_wet_exact.

Example C91_case : exists e, calc_rain_error_performance_metrics (mk_arr [3] [#0; #1; #2]) (mk_arr [3] [#4; #2; #9]) #1 = Ok e /\
  f_same_list [false_wet_precipitation_rate e; missed_wet_precipitation_rate e] [#3; fNaN] = true.
Proof. eexists. split; [reflexivity|]. vm_compute. reflexivity. Qed.

Theorem C55_deprecated_rates_agree : forall t w : list bool, length t = length w ->
  exists m : WetDryError F64,
  calc_wet_dry_performance_metrics (mk_arr [length t] (map of_bool t)) (mk_arr [length t] (map of_bool w)) = Ok m /\
  calc_wet_error_rates t w = (wd_false_wet_rate m, wd_missed_wet_rate m) /\
  calc_wet_dry_error t w = (wd_missed_wet_rate m, wd_false_wet_rate m).
Proof. exact (deprecated_agree F64sem). Qed.
Print Assumptions C55_deprecated_rates_agree.

Example C55_case : let '(f, m) := calc_wet_error_rates [true; false; false; true; true] [true; true; false; false; true] in
  f_same_list [f : F64; m] [f_div #1 #2; f_div #1 #3] = true.
Proof. vm_compute. reflexivity. Qed.
