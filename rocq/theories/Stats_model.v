(** * Model of /repo/pycomlink/validation/stats.py and of
      validator.py:calc_wet_dry_error

    Simplified: integer counts are unbounded (int64 in numpy); sums and means
    add from left to right (numpy adds pairwise). *)
From Coq Require Import List ZArith Bool.
From Verif Require Import Base Num NumList NpOps.
Import ListNotations.

(** numpy array: shape and flattened data *)
Record ndarr (A : Type) := mk_arr { nd_shape : list nat; nd_data : list A }.
Arguments mk_arr {_} _ _. Arguments nd_shape {_} _. Arguments nd_data {_} _.

(** boolean arrays: [&], [|], [~], [.sum()] *)
Definition b_and (a b : list bool) := map2 andb a b.
Definition b_or (a b : list bool) := map2 orb a b.
Definition b_not (a : list bool) := map negb a.
Definition b_sum (a : list bool) : nat := length (filter (fun b => b) a).

Definition shape_eqb (a b : list nat) : bool := if list_eq_dec Nat.eq_dec a b then true else false.

(** stats.py:8-28 *)
Record WetDryError (O : numops) := mk_WetDryError {
  wd_false_wet_rate : O; wd_missed_wet_rate : O; wd_matthews_correlation : O;
  wd_true_wet_rate : O; wd_true_dry_rate : O;
  N_dry_reference : nat; N_wet_reference : nat;
  N_true_wet : nat; N_true_dry : nat; N_false_wet : nat; N_missed_wet : nat;
  N_all_pairs : nat; N_nan_pairs : nat; N_nan_reference_only : nat; N_nan_predicted_only : nat }.
Arguments mk_WetDryError {_}.
Arguments wd_false_wet_rate {_} _. Arguments wd_missed_wet_rate {_} _. Arguments wd_matthews_correlation {_} _.
Arguments wd_true_wet_rate {_} _. Arguments wd_true_dry_rate {_} _. Arguments N_dry_reference {_} _. Arguments N_wet_reference {_} _.
Arguments N_true_wet {_} _. Arguments N_true_dry {_} _. Arguments N_false_wet {_} _. Arguments N_missed_wet {_} _.
Arguments N_all_pairs {_} _. Arguments N_nan_pairs {_} _. Arguments N_nan_reference_only {_} _. Arguments N_nan_predicted_only {_} _.

(** stats.py:66-89 *)
Record RainError (O : numops) := mk_RainError {
  pearson_correlation : O; coefficient_of_variation : O; root_mean_square_error : O; mean_absolute_error : O;
  R_sum_reference : O; R_sum_predicted : O; R_mean_reference : O; R_mean_predicted : O;
  re_false_wet_rate : O; re_missed_wet_rate : O; false_wet_precipitation_rate : O; missed_wet_precipitation_rate : O;
  rainfall_threshold_wet : O;
  re_N_all_pairs : nat; re_N_nan_pairs : nat; re_N_nan_reference_only : nat; re_N_nan_predicted_only : nat }.
Arguments mk_RainError {_}.
Arguments pearson_correlation {_} _. Arguments coefficient_of_variation {_} _. Arguments root_mean_square_error {_} _.
Arguments mean_absolute_error {_} _. Arguments R_sum_reference {_} _. Arguments R_sum_predicted {_} _.
Arguments R_mean_reference {_} _. Arguments R_mean_predicted {_} _. Arguments re_false_wet_rate {_} _. Arguments re_missed_wet_rate {_} _.
Arguments false_wet_precipitation_rate {_} _. Arguments missed_wet_precipitation_rate {_} _. Arguments rainfall_threshold_wet {_} _.
Arguments re_N_all_pairs {_} _. Arguments re_N_nan_pairs {_} _. Arguments re_N_nan_reference_only {_} _. Arguments re_N_nan_predicted_only {_} _.

Section Stats.
Context {O : numops}.

Definition n_ofnat (n : nat) : O := n_ofZ (Z.of_nat n).
(** numpy's division of two integer counts (0/0 is NaN) *)
Definition ratio (a b : nat) : O := n_div (n_ofnat a) (n_ofnat b).

(** [np.isnan(reference) | np.isnan(predicted)] (stats.py:157, 267) *)
Definition nan_index (reference predicted : list O) : list bool := b_or (map n_isnan reference) (map n_isnan predicted).

(** [len(reference)] (stats.py:159, 269): the first dimension; TypeError for a 0-d array *)
Definition nd_len {A} (a : ndarr A) : res nat := match nd_shape a with [] => Err TypeError | n :: _ => Ok n end.

(** stats.py:194-206 *)
Definition matthews (tp tn fp fn : nat) : O :=
  let a := n_sqrt (n_ofnat (tp + fp)) in
  let b := n_sqrt (n_ofnat (tp + fn)) in
  let c := n_sqrt (n_ofnat (tn + fp)) in
  let d := n_sqrt (n_ofnat (tn + fn)) in
  n_div (n_ofZ (Z.of_nat tp * Z.of_nat tn - Z.of_nat fp * Z.of_nat fn)) (n_mul (n_mul (n_mul a b) c) d).

(** stats.py:136-228 *)
Definition calc_wet_dry_performance_metrics (reference predicted : ndarr O) : res (WetDryError O) :=
  if negb (shape_eqb (nd_shape reference) (nd_shape predicted)) then Err AssertionError else
  let ni := nan_index (nd_data reference) (nd_data predicted) in
  let n_nan_pairs := b_sum ni in
  do n_all_pairs <- nd_len reference;
  let n_nan_reference_only := b_sum (map n_isnan (nd_data reference)) in
  let n_nan_predicted_only := b_sum (map n_isnan (nd_data predicted)) in
  let reference := mask_select n_nan (b_not ni) (nd_data reference) in
  let predicted := mask_select n_nan (b_not ni) (nd_data predicted) in
  (* the shapes agree again: both were selected with the same mask (165) *)
  let reference := map (fun x : O => n_ltb zero x) reference in
  let predicted := map (fun x : O => n_ltb zero x) predicted in
  let n_tp := b_sum (b_and reference predicted) in
  let n_tn := b_sum (b_and (b_not reference) (b_not predicted)) in
  let n_fp := b_sum (b_and (b_not reference) predicted) in
  let n_fn := b_sum (b_and reference (b_not predicted)) in
  let n_wet_reference := b_sum reference in
  let n_dry_reference := b_sum (b_not reference) in
  let true_wet_rate := ratio n_tp n_wet_reference in
  let true_dry_rate := ratio n_tn n_dry_reference in
  let false_wet_rate := ratio n_fp n_dry_reference in
  let missed_wet_rate := ratio n_fn n_wet_reference in
  let matthews_correlation := matthews n_tp n_tn n_fp n_fn in
  let matthews_correlation := if n_isinf matthews_correlation then zero else matthews_correlation in
  let matthews_correlation := if b_sum predicted =? 0 then zero else matthews_correlation in
  Ok {| wd_false_wet_rate := false_wet_rate; wd_missed_wet_rate := missed_wet_rate;
        wd_matthews_correlation := matthews_correlation;
        wd_true_wet_rate := true_wet_rate; wd_true_dry_rate := true_dry_rate;
        N_dry_reference := n_dry_reference; N_wet_reference := n_wet_reference;
        N_true_wet := n_tp; N_true_dry := n_tn; N_false_wet := n_fp; N_missed_wet := n_fn;
        N_all_pairs := n_all_pairs; N_nan_pairs := n_nan_pairs;
        N_nan_reference_only := n_nan_reference_only; N_nan_predicted_only := n_nan_predicted_only |}.

(** numpy pieces: element-wise arithmetic, [np.std], [np.clip], [np.corrcoef(x, y)[0, 1]] *)
Definition v_sub (a b : list O) : list O := map2 n_sub a b.
Definition v_mul (a b : list O) : list O := map2 n_mul a b.
Definition v_square (a : list O) : list O := map (fun x => n_mul x x) a.
Definition centered (a : list O) : list O := let m := n_mean a in map (fun x => n_sub x m) a.
Definition np_std (a : list O) : O := n_sqrt (n_mean (v_square (map n_abs (centered a)))).
Definition np_clip (x lo hi : O) : O :=
  if n_isnan x then x else
  let y := if n_ltb x lo then lo else x in
  if n_ltb hi y then hi else y.
(** numpy: cov = dot(X, X.T) * (1 / fact), fact = max(n - 1, 0); divided by both
    standard deviations; clipped to [-1, 1] *)
Definition np_cov (a b : list O) : O :=
  n_mul (n_sum (v_mul (centered a) (centered b))) (n_div one (n_ofnat (length a - 1))).
Definition np_corrcoef (a b : list O) : O :=
  np_clip (n_div (n_div (np_cov a b) (n_sqrt (np_cov a a))) (n_sqrt (np_cov b b))) (n_ofZ (-1)) one.

(** stats.py:231-329 *)
Definition calc_rain_error_performance_metrics (reference predicted : ndarr O) (threshold : O) : res (RainError O) :=
  if negb (shape_eqb (nd_shape reference) (nd_shape predicted)) then Err AssertionError else
  let ni := nan_index (nd_data reference) (nd_data predicted) in
  let n_nan_pairs := b_sum ni in
  do n_all_pairs <- nd_len reference;
  let n_nan_reference_only := b_sum (map n_isnan (nd_data reference)) in
  let n_nan_predicted_only := b_sum (map n_isnan (nd_data predicted)) in
  let reference := mask_select n_nan (b_not ni) (nd_data reference) in
  let predicted := mask_select n_nan (b_not ni) (nd_data predicted) in
  let pearson := np_corrcoef reference predicted in
  let cv := n_div (np_std (v_sub predicted reference)) (n_mean reference) in
  let rmse := n_sqrt (n_mean (v_square (v_sub predicted reference))) in
  let mae := n_mean (map n_abs (v_sub predicted reference)) in
  let r_sum_reference := n_sum reference in
  let r_sum_predicted := n_sum predicted in
  let r_mean_reference := n_mean reference in
  let r_mean_predicted := n_mean predicted in
  let reference_wet := map (fun x : O => n_ltb threshold x) reference in
  let reference_dry := b_not reference_wet in
  let predicted_wet := map (fun x : O => n_ltb threshold x) predicted in
  let predicted_dry := b_not predicted_wet in
  let n_false_wet := b_sum (b_and reference_dry predicted_wet) in
  let n_dry := b_sum reference_dry in
  let false_wet_rate := ratio n_false_wet n_dry in
  let n_missed_wet := b_sum (b_and reference_wet predicted_dry) in
  let n_wet := b_sum reference_wet in
  let missed_wet_rate := ratio n_missed_wet n_wet in
  let fw_precip := n_mean (mask_select n_nan (b_and reference_dry predicted_wet) predicted) in
  let mw_precip := n_mean (mask_select n_nan (b_and reference_wet predicted_dry) reference) in
  Ok {| pearson_correlation := pearson; coefficient_of_variation := cv;
        root_mean_square_error := rmse; mean_absolute_error := mae;
        R_sum_reference := r_sum_reference; R_sum_predicted := r_sum_predicted;
        R_mean_reference := r_mean_reference; R_mean_predicted := r_mean_predicted;
        re_false_wet_rate := false_wet_rate; re_missed_wet_rate := missed_wet_rate;
        false_wet_precipitation_rate := fw_precip; missed_wet_precipitation_rate := mw_precip;
        rainfall_threshold_wet := threshold;
        re_N_all_pairs := n_all_pairs; re_N_nan_pairs := n_nan_pairs;
        re_N_nan_reference_only := n_nan_reference_only; re_N_nan_predicted_only := n_nan_predicted_only |}.

(** [(a == True)], [(a == False)] on boolean data frames without missing values *)
Definition is_true (a : list bool) := map (fun b => Bool.eqb b true) a.
Definition is_false (a : list bool) := map (fun b => Bool.eqb b false) a.

(** stats.py:332-342; result (false, missed) *)
Definition calc_wet_error_rates (df_wet_truth df_wet : list bool) : O * O :=
  let n_false_wet := b_sum (b_and (is_false df_wet_truth) (is_true df_wet)) in
  let n_dry := b_sum (is_false df_wet_truth) in
  let false_wet_rate := ratio n_false_wet n_dry in
  let n_missed_wet := b_sum (b_and (is_true df_wet_truth) (is_false df_wet)) in
  let n_wet := b_sum (is_true df_wet_truth) in
  let missed_wet_rate := ratio n_missed_wet n_wet in
  (false_wet_rate, missed_wet_rate).

(** validator.py:176-187; result (wet_error, dry_error) *)
Definition calc_wet_dry_error (df_wet_truth df_wet : list bool) : O * O :=
  let dry_error := ratio (b_sum (b_and (is_false df_wet_truth) (is_true df_wet))) (b_sum (is_false df_wet_truth)) in
  let wet_error := ratio (b_sum (b_and (is_true df_wet_truth) (is_false df_wet))) (b_sum (is_true df_wet_truth)) in
  (wet_error, dry_error).
End Stats.
