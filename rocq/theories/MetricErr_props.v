(** * Properties C89, C107, C136 and C143 in binary64: rain metrics of two series *)
From Coq Require Import Reals Lra Lia ZArith Bool List Permutation.
From Verif Require Import Base Num NumF64 NumList NpOps RealStat Stats_model Stats_spec HaversineFloat_spec FloatErr_spec StatsErr_spec MetricErr_spec HaversineFloat_proofs MetricErr_proofs.
Import ListNotations.
Local Open Scope R_scope.

(** Another order of the pairs changes the float64 errors and means by rounding
    only, and not at all where the prediction is perfect. *)
Theorem C107_order_of_pairs_float_close : forall r p r' p' qs n t, length r = n -> length p = n -> length r' = n -> length p' = n -> Permutation (combine r p) (combine r' p') ->
  float_pairs r p qs -> qs <> [] -> INR (length qs) <= 2 ^ 20 -> (forall q, In q qs -> Rabs (fst q) <= 2 ^ 200 /\ Rabs (snd q) <= 2 ^ 200) ->
  exists e e' a s x y a' s' x' y',
  calc_rain_error_performance_metrics (mk_arr [n] r) (mk_arr [n] p) t = Ok e /\ calc_rain_error_performance_metrics (mk_arr [n] r') (mk_arr [n] p') t = Ok e' /\
  is_num (mean_absolute_error e) a /\ is_num (root_mean_square_error e) s /\ is_num (R_mean_reference e) x /\ is_num (R_mean_predicted e) y /\
  is_num (mean_absolute_error e') a' /\ is_num (root_mean_square_error e') s' /\ is_num (R_mean_reference e') x' /\ is_num (R_mean_predicted e') y' /\
  within 10 (/ 2 ^ 1069) (length qs) a (MAE qs) a' /\ within 20 (/ 2 ^ 529) (length qs) s (RMSE qs) s' /\
  within 8 (/ 2 ^ 1071) (length qs) x (rmean (map Rabs (map fst qs))) x' /\
  within 8 (/ 2 ^ 1071) (length qs) y (rmean (map Rabs (map snd qs))) y' /\
  ((forall q, In q qs -> fst q = snd q) -> a = 0 /\ s = 0 /\ a' = 0 /\ s' = 0).
Proof. exact order_close. Qed.
Print Assumptions C107_order_of_pairs_float_close.

(** two orders of three predictions of no rain: the mean absolute errors differ in
    the last place, so the allowance for rounding is needed *)
Definition C107_mae (p : list F64) : F64 :=
  match calc_rain_error_performance_metrics (mk_arr [3%nat] [#0; #0; #0]) (mk_arr [3%nat] p) #1 with Ok e => mean_absolute_error e | Err _ => fNaN end.
Example C107_case_float_close : n_ltb (C107_mae [#(2 ^ 54); #2; #2]) (C107_mae [#2; #2; #(2 ^ 54)]) = true.
Proof. vm_compute. reflexivity. Qed.
Example C107_case_float_pairs : float_pairs [#0; #0; fNaN] [#3; #2; #5] [(0, 3); (0, 2)].
Proof. change (float_pairs [#0; #0; fNaN] [#3; #2; #5]) with (Forall2 (fun (e : F64 * F64) (q : R * R) => is_num (fst e) (fst q) /\ is_num (snd e) (snd q)) [(#0 : F64, #3 : F64); (#0 : F64, #2 : F64)]).
  repeat constructor; cbn [fst snd]; apply num_ofZ; lia. Qed.

(** A reference off by at most [qr] and a prediction off by at most [qp] change the
    float64 errors by at most [qr + qp] and the means by at most [qr] and [qp], up to
    rounding. *)
Theorem C143_errors_float : forall qr qp r p r' p' qs qs' n t, length r = n -> length p = n -> length r' = n -> length p' = n ->
  float_pairs r p qs -> float_pairs r' p' qs' -> pairs_off_by qr qp qs qs' -> qs <> [] -> INR (length qs) <= 2 ^ 20 ->
  (forall q, In q (qs ++ qs') -> Rabs (fst q) <= 2 ^ 200 /\ Rabs (snd q) <= 2 ^ 200) ->
  let k := INR (length qs) / 2 ^ 53 in let means f := rmean (map Rabs (map f qs)) + rmean (map Rabs (map f qs')) in
  exists e e' a s x y a' s' x' y',
  calc_rain_error_performance_metrics (mk_arr [n] r) (mk_arr [n] p) t = Ok e /\ calc_rain_error_performance_metrics (mk_arr [n] r') (mk_arr [n] p') t = Ok e' /\
  is_num (mean_absolute_error e) a /\ is_num (root_mean_square_error e) s /\ is_num (R_mean_reference e) x /\ is_num (R_mean_predicted e) y /\
  is_num (mean_absolute_error e') a' /\ is_num (root_mean_square_error e') s' /\ is_num (R_mean_reference e') x' /\ is_num (R_mean_predicted e') y' /\
  Rabs (a' - a) <= (qr + qp) + 5 * k * (MAE qs + MAE qs') + / 2 ^ 1069 /\
  Rabs (s' - s) <= (qr + qp) + 10 * k * (RMSE qs + RMSE qs') + / 2 ^ 529 /\
  Rabs (x' - x) <= qr + 4 * k * means fst + / 2 ^ 1071 /\ Rabs (y' - y) <= qp + 4 * k * means snd + / 2 ^ 1071.
Proof. exact series_close. Qed.
Print Assumptions C143_errors_float.

(** predictions 3 and 2 against 4 and 1, references the same *)
Example C143_case_off : pairs_off_by 0 1 [(0, 3); (0, 2)] [(0, 4); (0, 1)].
Proof. repeat (apply Forall2_cons; [split; cbn [fst snd]; apply Rabs_le; lra|]). apply Forall2_nil. Qed.

(** The difference of the reported means is the mean error up to rounding, and at
    most the reported mean absolute error and the reported RMSE, up to rounding. *)
Theorem C89_bias_float : forall r p qs n t, length r = n -> length p = n -> float_pairs r p qs -> qs <> [] -> INR (length qs) <= 2 ^ 20 -> (forall q, In q qs -> Rabs (fst q) <= 2 ^ 200 /\ Rabs (snd q) <= 2 ^ 200) ->
  let k := INR (length qs) / 2 ^ 53 in let both := rmean (map Rabs (map fst qs)) + rmean (map Rabs (map snd qs)) in
  exists e a s x y, calc_rain_error_performance_metrics (mk_arr [n] r) (mk_arr [n] p) t = Ok e /\
  is_num (mean_absolute_error e) a /\ is_num (root_mean_square_error e) s /\ is_num (R_mean_reference e) x /\ is_num (R_mean_predicted e) y /\
  Rabs (y - x - (rmean (map snd qs) - rmean (map fst qs))) <= 4 * k * both + / 2 ^ 1071 /\
  Rabs (y - x) <= a + 5 * k * MAE qs + 4 * k * both + / 2 ^ 1069 /\ Rabs (y - x) <= s + 10 * k * RMSE qs + 4 * k * both + / 2 ^ 529.
Proof. exact bias_close. Qed.
Print Assumptions C89_bias_float.

(** the allowance is needed: reference 0, 0.1 and prediction 0.1, 0.2 *)
Theorem C89_bias_above_mae_refuted : exists e, calc_rain_error_performance_metrics (mk_arr [2%nat] [#0; n_lit 1 1]) (mk_arr [2%nat] [n_lit 1 1; n_lit 2 1]) #1 = Ok e /\
  n_ltb (mean_absolute_error e) (n_sub (R_mean_predicted e) (R_mean_reference e)) = true.
Proof. eexists. split; [reflexivity|]. vm_compute. reflexivity. Qed.
Print Assumptions C89_bias_above_mae_refuted.
Example C89_case_bias : exists e, calc_rain_error_performance_metrics (mk_arr [2%nat] [#1; #3]) (mk_arr [2%nat] [#5; #2]) #1 = Ok e /\
  n_eqb (n_sub (R_mean_predicted e) (R_mean_reference e)) (n_div #3 #2) = true /\ n_eqb (mean_absolute_error e) (n_div #5 #2) = true.
Proof. eexists. split; [reflexivity|]. split; vm_compute; reflexivity. Qed.

(** For series of numbers a detour is shorter by rounding only, *)
Theorem C136_triangle_float : forall a b c ra rb rc n t, Forall2 is_num a ra -> Forall2 is_num b rb -> Forall2 is_num c rc -> length a = n -> length b = n -> length c = n -> n <> 0%nat -> INR n <= 2 ^ 20 ->
  (forall v, In v (ra ++ rb ++ rc) -> Rabs v <= 2 ^ 200) ->
  exists e1 e2 e3, calc_rain_error_performance_metrics (mk_arr [n] a) (mk_arr [n] b) t = Ok e1 /\ calc_rain_error_performance_metrics (mk_arr [n] b) (mk_arr [n] c) t = Ok e2 /\
  calc_rain_error_performance_metrics (mk_arr [n] a) (mk_arr [n] c) t = Ok e3 /\
  exists r1 r2 r3 m1 m2 m3, is_num (root_mean_square_error e1) r1 /\ is_num (root_mean_square_error e2) r2 /\ is_num (root_mean_square_error e3) r3 /\
  is_num (mean_absolute_error e1) m1 /\ is_num (mean_absolute_error e2) m2 /\ is_num (mean_absolute_error e3) m3 /\
  r3 <= (r1 + r2) * (1 + 24 * INR n / 2 ^ 53) + / 2 ^ 528 /\ m3 <= (m1 + m2) * (1 + 12 * INR n / 2 ^ 53) + / 2 ^ 1068.
Proof. exact triangle_close. Qed.
Print Assumptions C136_triangle_float.

(** and so it can be: from 0 to 0.9 by way of 0.2 *)
Theorem C136_triangle_rounded_refuted : exists e1 e2 e3, let m k : F64 := n_lit k 1 in
  calc_rain_error_performance_metrics (mk_arr [1%nat] [#0]) (mk_arr [1%nat] [m 2%Z]) #1 = Ok e1 /\ calc_rain_error_performance_metrics (mk_arr [1%nat] [m 2%Z]) (mk_arr [1%nat] [m 9%Z]) #1 = Ok e2 /\
  calc_rain_error_performance_metrics (mk_arr [1%nat] [#0]) (mk_arr [1%nat] [m 9%Z]) #1 = Ok e3 /\
  n_ltb (n_add (mean_absolute_error e1) (mean_absolute_error e2)) (mean_absolute_error e3) = true.
Proof. do 3 eexists. intros m. do 3 (split; [reflexivity|]). vm_compute. reflexivity. Qed.
Print Assumptions C136_triangle_rounded_refuted.
Example C136_case_series : Forall2 is_num [#0; #5; #(-2)] [0; 5; -2].
Proof. repeat (apply Forall2_cons; [apply num_ofZ; lia|]). apply Forall2_nil. Qed.
