(** * Property C136: what the rain metrics see and do not see *)
From Coq Require Import Reals Lra Lia ZArith Bool List.
From Flocq Require Import Core.Raux.
From Verif Require Import Base Num NumF64 NumList RealSpec RealStat Stats_model Stats_spec MetricAffine_spec MetricAffine_proofs.
Import ListNotations.
Local Open Scope R_scope.

(** A correlation of 1 (-1) means: the prediction is a rising (falling) straight
    line of the reference, and nothing more. *)
Theorem C136_correlation_of_one_exact : forall r p ps n t, length r = n -> length p = n -> real_pairs r p ps -> ps <> [] ->
  exists e, calc_rain_error_performance_metrics (mk_arr [n] r) (mk_arr [n] p) t = Ok e /\
  (pearson_correlation e = XFin 1 <-> varies (map fst ps) /\ exists a b, 0 < a /\ forall q, In q ps -> snd q = a * fst q + b) /\
  (pearson_correlation e = XFin (-1) <-> varies (map fst ps) /\ exists a b, a < 0 /\ forall q, In q ps -> snd q = a * fst q + b).
Proof. exact correlation_of_one. Qed.
Print Assumptions C136_correlation_of_one_exact.

(** the correlation does not see a gain and an offset of the prediction; it is NaN
    for the one exactly if it is for the other *)
Theorem C136_correlation_recalibrated_exact : forall a b r p n t, a <> 0 -> length r = n -> length p = n -> no_inf r -> no_inf p ->
  exists e e', calc_rain_error_performance_metrics (mk_arr [n] r) (mk_arr [n] p) t = Ok e /\
  calc_rain_error_performance_metrics (mk_arr [n] r) (mk_arr [n] (recalibrate a b p)) t = Ok e' /\
  pearson_correlation e' = if Rlt_bool 0 a then pearson_correlation e else xopp (pearson_correlation e).
Proof. exact correlation_recalibrated. Qed.
Print Assumptions C136_correlation_recalibrated_exact.

(** the coefficient of variation does not see an offset; the RMSE does *)
Theorem C136_offset_exact : forall b r p ps n t, length r = n -> length p = n -> real_pairs r p ps -> ps <> [] ->
  exists e e', calc_rain_error_performance_metrics (mk_arr [n] r) (mk_arr [n] p) t = Ok e /\
  calc_rain_error_performance_metrics (mk_arr [n] r) (mk_arr [n] (recalibrate 1 b p)) t = Ok e' /\
  coefficient_of_variation e' = coefficient_of_variation e /\
  exists rm rm' mr mp, root_mean_square_error e = (XFin rm : XR) /\ root_mean_square_error e' = (XFin rm' : XR) /\
  R_mean_reference e = (XFin mr : XR) /\ R_mean_predicted e = (XFin mp : XR) /\
  rm' ^ 2 = rm ^ 2 - (mp - mr) ^ 2 + (mp + b - mr) ^ 2.
Proof. exact offset_metrics. Qed.
Print Assumptions C136_offset_exact.

(** so the offset that makes the means agree is the only best one *)
Theorem C136_best_offset_exact : forall b r p ps n t, length r = n -> length p = n -> real_pairs r p ps -> ps <> [] ->
  exists mr mp e e', R_mean_reference e = (XFin mr : XR) /\ R_mean_predicted e = (XFin (mp + (mr - mp)) : XR) /\
  calc_rain_error_performance_metrics (mk_arr [n] r) (mk_arr [n] (recalibrate 1 (mr - mp) p)) t = Ok e /\
  calc_rain_error_performance_metrics (mk_arr [n] r) (mk_arr [n] (recalibrate 1 b p)) t = Ok e' /\
  exists rm rm', root_mean_square_error e = (XFin rm : XR) /\ root_mean_square_error e' = (XFin rm' : XR) /\
  rm <= rm' /\ (rm' = rm -> b = mr - mp).
Proof. exact best_offset. Qed.
Print Assumptions C136_best_offset_exact.

(** RMSE and MAE are distances: for series without gaps a detour is never shorter *)
Theorem C136_triangle_exact : forall a b c n t, length a = n -> length b = n -> length c = n -> n <> 0%nat ->
  exists e1 e2 e3, calc_rain_error_performance_metrics (mk_arr [n] (ofR a)) (mk_arr [n] (ofR b)) t = Ok e1 /\
  calc_rain_error_performance_metrics (mk_arr [n] (ofR b)) (mk_arr [n] (ofR c)) t = Ok e2 /\
  calc_rain_error_performance_metrics (mk_arr [n] (ofR a)) (mk_arr [n] (ofR c)) t = Ok e3 /\
  exists r1 r2 r3 m1 m2 m3, root_mean_square_error e1 = (XFin r1 : XR) /\ root_mean_square_error e2 = (XFin r2 : XR) /\ root_mean_square_error e3 = (XFin r3 : XR) /\
  mean_absolute_error e1 = (XFin m1 : XR) /\ mean_absolute_error e2 = (XFin m2 : XR) /\ mean_absolute_error e3 = (XFin m3 : XR) /\
  r3 <= r1 + r2 /\ m3 <= m1 + m2.
Proof. exact metric_triangle. Qed.
Print Assumptions C136_triangle_exact.

Definition C136_rain (r p : list F64) : list F64 :=
  match calc_rain_error_performance_metrics (mk_arr [List.length r] r) (mk_arr [List.length r] p) #1 with
  | Ok e => [pearson_correlation e; coefficient_of_variation e; root_mean_square_error e; mean_absolute_error e] | Err _ => [] end.

(** With gaps this fails: where the series in the middle is missing, the
    disagreement of the outer two is not counted. *)
Theorem C136_triangle_with_gaps_refuted : exists (a b c : list F64) e1 e2 e3,
  calc_rain_error_performance_metrics (mk_arr [2%nat] a) (mk_arr [2%nat] b) #1 = Ok e1 /\
  calc_rain_error_performance_metrics (mk_arr [2%nat] b) (mk_arr [2%nat] c) #1 = Ok e2 /\
  calc_rain_error_performance_metrics (mk_arr [2%nat] a) (mk_arr [2%nat] c) #1 = Ok e3 /\
  f_same_list [root_mean_square_error e1; root_mean_square_error e2; mean_absolute_error e1; mean_absolute_error e2] [#0; #0; #0; #0] = true /\
  n_ltb (#3 : F64) (root_mean_square_error e3) = true /\ n_ltb (#2 : F64) (mean_absolute_error e3) = true.
Proof.
  exists [#0; #0], [#0; fNaN], [#0; #5]. do 3 eexists. do 3 (split; [reflexivity|]). vm_compute. repeat split.
Qed.
Print Assumptions C136_triangle_with_gaps_refuted.

Definition C136_tenths (k : Z) : F64 := f_div (n_ofZ k : F64) #10.
(** In binary64 constant series get a perfect correlation: 0.1 three times
    against 0.2 three times gives 1, against 0.7 three times -1 (the rounded mean
    of three times 0.1 is not 0.1).  Exact arithmetic gives NaN (C88). *)
Theorem C136_constant_series_correlate_refuted : exists r p q e e',
  (forall x, In x r -> x = C136_tenths 1) /\ (forall x, In x p -> x = C136_tenths 2) /\ (forall x, In x q -> x = C136_tenths 7) /\
  calc_rain_error_performance_metrics (mk_arr [3%nat] r) (mk_arr [3%nat] p) #1 = Ok e /\
  calc_rain_error_performance_metrics (mk_arr [3%nat] r) (mk_arr [3%nat] q) #1 = Ok e' /\
  f_same_list [pearson_correlation e; pearson_correlation e'] [#1; #(-1)] = true.
Proof.
  exists [C136_tenths 1; C136_tenths 1; C136_tenths 1], [C136_tenths 2; C136_tenths 2; C136_tenths 2], [C136_tenths 7; C136_tenths 7; C136_tenths 7]. do 2 eexists.
  do 3 (split; [intros x [<-|[<-|[<-|[]]]]; reflexivity|]). do 2 (split; [reflexivity|]). vm_compute. reflexivity.
Qed.
Print Assumptions C136_constant_series_correlate_refuted.

(** and a perfect prediction can get less than 1: 1, 1, 3 against itself *)
Theorem C136_perfect_below_one_refuted : exists e,
  calc_rain_error_performance_metrics (mk_arr [3%nat] [#1; #1; #3]) (mk_arr [3%nat] [#1; #1; #3]) #1 = Ok e /\
  n_ltb (pearson_correlation e) (#1 : F64) = true.
Proof. eexists. split; [reflexivity|]. vm_compute. reflexivity. Qed.
Print Assumptions C136_perfect_below_one_refuted.

(** prediction 7 - 2 * reference; prediction shifted by 1 and by the best offset -1: same CV, RMSE^2 8, 13 and 4 *)
Example C136_case : f_same_list (firstn 1 (C136_rain [#1; #2; #3; fNaN] [#5; #3; #1; #9])) [#(-1)] &&
  f_same_list (skipn 1 (C136_rain [#1; #3] [#5; #3])) [#1; n_sqrt (#8 : F64); #2] && f_same_list (skipn 1 (C136_rain [#1; #3] [#6; #4])) [#1; n_sqrt (#13 : F64); #3] &&
  f_same_list (skipn 1 (C136_rain [#1; #3] [#3; #1])) [#1; #2; #2] = true.
Proof. vm_compute. reflexivity. Qed.
(** recalibrating keeps gaps *)
Example C136_case_recalibrate : recalibrate 2 1 [XFin 3; XNaN] = [XFin (2 * 3 + 1); XNaN].
Proof. reflexivity. Qed.
Example C136_case_varies : varies [1; 2; 2] /\ ~ varies [2; 2].
Proof. split; [exists 1, 2; repeat split; cbn; auto; lra|]. intros (x & y & Hx & Hy & N). cbn in Hx, Hy. lra. Qed.
