(** * Property C117 in binary64: rain metrics of joined records *)
From Coq Require Import Reals Lra Lia ZArith Bool List.
From Verif Require Import Base Num NumF64 NumList RealStat Stats_model Stats_spec HaversineFloat_spec HaversineFloat_proofs FloatErr_spec StatsErr_spec StatsErr_props MetricPool_spec MetricPoolFloat_proofs.
Import ListNotations.
Local Open Scope R_scope.

(** Up to rounding the mean absolute error and the mean rain rates of two joined
    records are the averages of those of the records, weighted with the numbers
    of valid pairs, the root mean square error in the squares; both errors lie
    between those of the records up to rounding. *)
Theorem C117_float_errors_are_weighted : forall r1 p1 r2 p2 ps qs n1 n2 t, length r1 = n1 -> length p1 = n1 -> length r2 = n2 -> length p2 = n2 ->
  float_pairs r1 p1 ps -> float_pairs r2 p2 qs -> ps <> [] -> qs <> [] -> INR (length ps + length qs) <= 2 ^ 20 ->
  (forall q, In q (ps ++ qs) -> Rabs (fst q) <= 2 ^ 200 /\ Rabs (snd q) <= 2 ^ 200) ->
  exists e1 e2 e a1 a2 a s1 s2 s x1 x2 x y1 y2 y,
  calc_rain_error_performance_metrics (mk_arr [n1] r1) (mk_arr [n1] p1) t = Ok e1 /\
  calc_rain_error_performance_metrics (mk_arr [n2] r2) (mk_arr [n2] p2) t = Ok e2 /\
  calc_rain_error_performance_metrics (mk_arr [(n1 + n2)%nat] (r1 ++ r2)) (mk_arr [(n1 + n2)%nat] (p1 ++ p2)) t = Ok e /\
  is_num (mean_absolute_error e1) a1 /\ is_num (mean_absolute_error e2) a2 /\ is_num (mean_absolute_error e) a /\
  is_num (root_mean_square_error e1) s1 /\ is_num (root_mean_square_error e2) s2 /\ is_num (root_mean_square_error e) s /\
  is_num (R_mean_reference e1) x1 /\ is_num (R_mean_reference e2) x2 /\ is_num (R_mean_reference e) x /\
  is_num (R_mean_predicted e1) y1 /\ is_num (R_mean_predicted e2) y2 /\ is_num (R_mean_predicted e) y /\
  let N1 := INR (n1 - re_N_nan_pairs e1) in let N2 := INR (n2 - re_N_nan_pairs e2) in
  let N := N1 + N2 in
  Rabs (N * a - (N1 * a1 + N2 * a2)) <= 11 * N / 2 ^ 53 * (N * a) + N * / 2 ^ 1068 /\
  Rabs (N * (s * s) - (N1 * (s1 * s1) + N2 * (s2 * s2))) <= 50 * N / 2 ^ 53 * (N * (s * s)) + N * / 2 ^ 990 /\
  Rabs (N * x - (N1 * x1 + N2 * x2)) <= 8 * N / 2 ^ 53 * rsum (map Rabs (map fst (ps ++ qs))) + N * / 2 ^ 1068 /\
  Rabs (N * y - (N1 * y1 + N2 * y2)) <= 8 * N / 2 ^ 53 * rsum (map Rabs (map snd (ps ++ qs))) + N * / 2 ^ 1068 /\
  Rmin a1 a2 * (1 - 15 * N / 2 ^ 53) - / 2 ^ 1068 <= a <= Rmax a1 a2 * (1 + 15 * N / 2 ^ 53) + / 2 ^ 1068 /\
  Rmin s1 s2 * (1 - 30 * N / 2 ^ 53) - / 2 ^ 528 <= s <= Rmax s1 s2 * (1 + 30 * N / 2 ^ 53) + / 2 ^ 528.
Proof. exact pool_float. Qed.
Print Assumptions C117_float_errors_are_weighted.

(** Not exactly between: errors of 0.1 and of 0.1, 0.1 have mean absolute error
    0.1 each, the joined record has a greater one. *)
Theorem C117_float_mae_between_refuted : exists e1 e2 e,
  calc_rain_error_performance_metrics (mk_arr [1%nat] [#0]) (mk_arr [1%nat] [tenth]) #1 = Ok e1 /\
  calc_rain_error_performance_metrics (mk_arr [2%nat] [#0; #0]) (mk_arr [2%nat] [tenth; tenth]) #1 = Ok e2 /\
  calc_rain_error_performance_metrics (mk_arr [3%nat] [#0; #0; #0]) (mk_arr [3%nat] [tenth; tenth; tenth]) #1 = Ok e /\
  n_ltb (mean_absolute_error e1) (mean_absolute_error e) = true /\ n_ltb (mean_absolute_error e2) (mean_absolute_error e) = true.
Proof. do 3 eexists. do 3 (split; [reflexivity|]). split; vm_compute; reflexivity. Qed.
Print Assumptions C117_float_mae_between_refuted.

(** the hypotheses hold: one valid pair (1, 3) and a NaN, joined with (2, 0), (4, 5) *)
Example C117_case_float : float_pairs [#1; fNaN] [#3; #5] [(1, 3)] /\ float_pairs [#2; #4] [#0; #5] [(2, 0); (4, 5)] /\
  forall q, In q ([(1, 3)] ++ [(2, 0); (4, 5)]) -> Rabs (fst q) <= 2 ^ 200 /\ Rabs (snd q) <= 2 ^ 200.
Proof.
  split; [|split].
  - change (float_pairs [#1; fNaN] [#3; #5]) with (Forall2 (fun (e : F64 * F64) (q : R * R) => is_num (fst e) (fst q) /\ is_num (snd e) (snd q)) [(#1 : F64, #3 : F64)]).
    repeat constructor; cbn [fst snd]; apply num_ofZ; lia.
  - change (float_pairs [#2; #4] [#0; #5]) with (Forall2 (fun (e : F64 * F64) (q : R * R) => is_num (fst e) (fst q) /\ is_num (snd e) (snd q)) [(#2 : F64, #0 : F64); (#4 : F64, #5 : F64)]).
    repeat constructor; cbn [fst snd]; apply num_ofZ; lia.
  - assert (P : 5 <= 2 ^ 200) by (change 200%nat with (3 + 197)%nat; rewrite pow_add; pose proof (pow_R1_Rle 2 197 ltac:(lra)); lra).
    intros q [<-|[<-|[<-|[]]]]; cbn [fst snd]; rewrite !Rabs_pos_eq by lra; split; lra.
Qed.
