(** * Properties C54 and C91 in binary64: errors of the rain metrics *)
From Coq Require Import Reals Lra Lia ZArith Bool List.
From Flocq Require Import Core.
From Verif Require Import Base Num NumF64 NumList NpOps RealStat Libm Stats_model Stats_spec Stats_proofs3 HaversineFloat_spec HaversineFloat_proofs FloatErr_spec FloatErr_proofs StatsErr_spec StatsErr_proofs.
Import ListNotations.
Local Open Scope R_scope.

(** Whatever the order in which numpy adds, the four metrics are numbers close
    to the exact ones: up to 5 (10, 4, 4) units in the last place for each
    valid pair.  A perfect prediction has errors of exactly zero, and the mean
    absolute error exceeds the RMSE by rounding only. *)
Theorem C54_float_errors_any_order : forall r p qs ma ms mr mp, float_pairs r p qs -> qs <> [] -> INR (length qs) <= 2 ^ 20 ->
  (forall q, In q qs -> Rabs (fst q) <= 2 ^ 200 /\ Rabs (snd q) <= 2 ^ 200) ->
  let es := valid_pairs r p in
  mean_of (map (fun e => n_abs (n_sub (snd e) (fst e))) es) ma -> mean_of (map (fun e => n_mul (n_sub (snd e) (fst e)) (n_sub (snd e) (fst e))) es) ms ->
  mean_of (map fst es) mr -> mean_of (map snd es) mp ->
  exists a s x y, is_num ma a /\ is_num (n_sqrt ms) s /\ is_num mr x /\ is_num mp y /\ 0 <= a /\ 0 <= s /\
  within 5 (/ 2 ^ 1070) (length qs) (MAE qs) (MAE qs) a /\ within 10 (/ 2 ^ 530) (length qs) (RMSE qs) (RMSE qs) s /\
  within 4 (/ 2 ^ 1072) (length qs) (rmean (map fst qs)) (rmean (map Rabs (map fst qs))) x /\
  within 4 (/ 2 ^ 1072) (length qs) (rmean (map snd qs)) (rmean (map Rabs (map snd qs))) y /\
  ((forall q, In q qs -> fst q = snd q) -> a = 0 /\ s = 0) /\
  a <= s * (1 + 20 * INR (length qs) / 2 ^ 53) + / 2 ^ 528.
Proof. exact metrics_close. Qed.
Print Assumptions C54_float_errors_any_order.

(** the same for the metrics as modelled (sums from left to right) *)
Theorem C54_float_errors : forall r p qs n t, length r = n -> length p = n -> float_pairs r p qs -> qs <> [] -> INR (length qs) <= 2 ^ 20 ->
  (forall q, In q qs -> Rabs (fst q) <= 2 ^ 200 /\ Rabs (snd q) <= 2 ^ 200) ->
  exists e a s x y, calc_rain_error_performance_metrics (mk_arr [n] r) (mk_arr [n] p) t = Ok e /\
  is_num (mean_absolute_error e) a /\ is_num (root_mean_square_error e) s /\ is_num (R_mean_reference e) x /\ is_num (R_mean_predicted e) y /\ 0 <= a /\ 0 <= s /\
  within 5 (/ 2 ^ 1070) (length qs) (MAE qs) (MAE qs) a /\ within 10 (/ 2 ^ 530) (length qs) (RMSE qs) (RMSE qs) s /\
  within 4 (/ 2 ^ 1072) (length qs) (rmean (map fst qs)) (rmean (map Rabs (map fst qs))) x /\
  within 4 (/ 2 ^ 1072) (length qs) (rmean (map snd qs)) (rmean (map Rabs (map snd qs))) y /\
  ((forall q, In q qs -> fst q = snd q) -> a = 0 /\ s = 0) /\
  a <= s * (1 + 20 * INR (length qs) / 2 ^ 53) + / 2 ^ 528.
Proof.
  intros r p qs n t H1 H2 F NE FW MD.
  destruct (metrics_close r p qs _ _ _ _ F NE FW MD (n_mean_of _) (n_mean_of _) (n_mean_of _) (n_mean_of _)) as (a & s & x & y & H).
  rewrite rain_eval by congruence. eexists. exists a, s, x, y. split; [reflexivity|].
  cbn [mean_absolute_error root_mean_square_error R_mean_reference R_mean_predicted]. unfold v_square, v_sub. rewrite IdwFloat_proofs.map2_map, !map_map. rewrite !map_map in H. exact H.
Qed.
Print Assumptions C54_float_errors.

(** In exact arithmetic the mean absolute error never exceeds the RMSE.  In
    binary64 it does: reference 0, 0, 0 and prediction 0.1, 0.1, 0.1. *)
Definition tenth : F64 := f_div #1 #10.
Theorem C54_float_mae_above_rmse_refuted : exists e, calc_rain_error_performance_metrics (mk_arr [3%nat] [#0; #0; #0]) (mk_arr [3%nat] [tenth; tenth; tenth]) #1 = Ok e /\
  n_ltb (root_mean_square_error e) (mean_absolute_error e) = true.
Proof. eexists. split; [reflexivity|]. vm_compute. reflexivity. Qed.
Print Assumptions C54_float_mae_above_rmse_refuted.

(** the hypotheses hold for pairs (1,3), (2,0), the third pair has a NaN *)
Example C54_case_float : float_pairs [#1; #2; fNaN] [#3; #0; #5] [(1, 3); (2, 0)].
Proof. change (float_pairs [#1; #2; fNaN] [#3; #0; #5]) with (Forall2 (fun (e : F64 * F64) (q : R * R) => is_num (fst e) (fst q) /\ is_num (snd e) (snd q)) [(#1 : F64, #3 : F64); (#2 : F64, #0 : F64)]).
  repeat constructor; cbn [fst snd]; apply num_ofZ; lia. Qed.

(** The rain of the falsely wet (missed wet) pairs is their mean up to
    rounding, and the exact mean lies above the threshold. *)
Theorem C91_float_rain_of_false_and_missed_wet : forall r p qs n t tr, length r = n -> length p = n -> float_pairs r p qs -> is_num t tr -> INR (length qs) <= 2 ^ 20 ->
  (forall q, In q qs -> Rabs (fst q) <= 2 ^ 200 /\ Rabs (snd q) <= 2 ^ 200) ->
  exists e, calc_rain_error_performance_metrics (mk_arr [n] r) (mk_arr [n] p) t = Ok e /\
  (filter (fw tr) qs <> [] -> let vs := map snd (filter (fw tr) qs) in
     exists v, is_num (false_wet_precipitation_rate e) v /\ within 4 (/ 2 ^ 1072) (length vs) (rmean vs) (rmean (map Rabs vs)) v /\ tr < rmean vs) /\
  (filter (mw tr) qs <> [] -> let vs := map fst (filter (mw tr) qs) in
     exists v, is_num (missed_wet_precipitation_rate e) v /\ within 4 (/ 2 ^ 1072) (length vs) (rmean vs) (rmean (map Rabs vs)) v /\ tr < rmean vs).
Proof.
  intros r p qs n t tr H1 H2 F HT FW MD. rewrite rain_eval by congruence. eexists. split; [reflexivity|]. cbn [false_wet_precipitation_rate missed_wet_precipitation_rate]. split; intros NE; cbv zeta; rewrite map_length.
  - apply (class_close (false_wet t) (fw tr) snd snd tr (valid_pairs r p) qs); auto; [intros; apply MD; auto| | |apply n_mean_of].
    + intros e q A B. split; [apply fw_num; auto|auto].
    + intros q G. unfold fw in G. apply andb_true_iff in G as (_ & G). destruct (Rlt_bool_spec tr (snd q)); [auto|discriminate].
  - apply (class_close (missed_wet t) (mw tr) fst fst tr (valid_pairs r p) qs); auto; [intros; apply MD; auto| | |apply n_mean_of].
    + intros e q A B. split; [apply mw_num; auto|auto].
    + intros q G. unfold mw in G. apply andb_true_iff in G as (G & _). destruct (Rlt_bool_spec tr (fst q)); [auto|discriminate].
Qed.
Print Assumptions C91_float_rain_of_false_and_missed_wet.

(** The reported mean itself may fall to the threshold: the reference is dry,
    three predictions of 0.7 are above the threshold, the largest number below
    0.7, and their reported mean is not above it. *)
Definition seven : F64 := f_div #7 #10.
Definition below_seven : F64 := n_sub seven (f_div seven (n_ofZ (2 ^ 53) : F64)).
Theorem C91_float_mean_above_threshold_refuted : exists e, calc_rain_error_performance_metrics (mk_arr [3%nat] [#0; #0; #0]) (mk_arr [3%nat] [seven; seven; seven]) below_seven = Ok e /\
  n_ltb below_seven seven = true /\ n_ltb below_seven (false_wet_precipitation_rate e) = false.
Proof. eexists. split; [reflexivity|]. split; vm_compute; reflexivity. Qed.
Print Assumptions C91_float_mean_above_threshold_refuted.
