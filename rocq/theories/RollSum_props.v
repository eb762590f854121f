(** * Property C129: the rolling sum of the outlier score is a running sum *)
From Coq Require Import Reals Lra Lia ZArith Bool List.
From Verif Require Import Base Num NumF64 NumList RealSpec RealStat Median RollSum_model HaversineFloat_spec HaversineFloat_proofs RollSum_spec RollSum_proofs.
Import ListNotations.
Local Open Scope nat_scope.

(** In exact arithmetic the running sum is the sum of the numbers in the window,
    NaN where there are fewer than [k] of them ... *)
Theorem C129_running_sum_exact : forall (l : list XR) vals w k, exact_series l vals -> 1 <= k <= w -> w <= length l ->
  exists r, move_sum w k l = Ok r /\ length r = length l /\ forall t, t < length l ->
    get XNaN r t = (if Nat.ltb (length (window_numbers vals w t)) k then XNaN else XFin (rsum (window_numbers vals w t)) : XR).
Proof.
  intros l vals w k S K W. assert (OK : rolling_ok w k (length l) = true) by (apply rolling_ok_true; lia).
  rewrite (move_sum_exact l vals S w k). destruct (rolling_get n_sum w k l OK) as (r & E & L & G). exists r. split; [exact E|]. split; [exact L|].
  intros t Ht. change (get XNaN r t) with (get (n_nan : XR) r t). rewrite (G t Ht). cbv zeta. rewrite (trailing_numbers l vals S w t) by lia. unfold ofR at 1. rewrite map_length.
  destruct (Nat.ltb_spec (length (window_numbers vals w t)) k); [reflexivity|apply n_sum_ofR].
Qed.
Print Assumptions C129_running_sum_exact.

(** ... so that what C36 says about the score holds for the running sum: it gives
    the series, or refuses the window, like the window sums of the model *)
Theorem C129_same_as_window_sums_exact : forall (l : list XR) vals, exact_series l vals -> forall w k, move_sum w k l = rolling n_sum w k l.
Proof. exact move_sum_exact. Qed.
Print Assumptions C129_same_as_window_sums_exact.

(** One infinite value (pmin of -inf, a link of length 0) spoils the score of
    all later steps: the sum of the last two values is 2, the running sum NaN. *)
Theorem C129_infinity_refuted : exists r r' : list XR,
  move_sum 2 2 [XPInf; XFin 0; XFin 1; XFin 1] = Ok r /\ rolling n_sum 2 2 [XPInf; XFin 0; XFin 1; XFin 1] = Ok r' /\
  get XNaN r 3 = XNaN /\ get XNaN r' 3 = XFin 2.
Proof.
  do 2 eexists. split; [reflexivity|]. split; [reflexivity|]. split; [reflexivity|]. cbn. f_equal. lra.
Qed.
Print Assumptions C129_infinity_refuted.

(** In binary64 NaN appears at the same steps.  The error of the sum at step [t]
    grows with [t], not with the length of the window, and with the largest
    magnitude in the whole series. *)
Theorem C129_float_running_sum : forall (l : list F64) vals M w k, float_series l vals -> (forall i r, i < length l -> vals i = Some r -> (Rabs r <= M)%R) ->
  (0 <= M <= 2 ^ 900)%R -> (INR (length l) <= 2 ^ 20)%R -> 1 <= k <= w -> w <= length l ->
  exists r, move_sum w k l = Ok r /\ length r = length l /\ forall t, t < length l ->
    (length (window_numbers vals w t) < k -> n_isnan (get n_nan r t) = true) /\
    (k <= length (window_numbers vals w t) -> exists s, is_num (get n_nan r t) s /\
       (Rabs (s - rsum (window_numbers vals w t)) <= INR (t + 1) * (INR w + 4) / 2 ^ 53 * M)%R).
Proof. intros l vals M w k S B HM HL. exact (move_sum_float l vals S M B HM HL w k). Qed.
Print Assumptions C129_float_running_sum.

(** The sum of a window depends on what came before it: 1 after 2^60 is
    reported as 0, 1 after 0 as 1. *)
Theorem C129_float_window_only_refuted : exists (l l' r r' : list F64),
  move_sum 1 1 l = Ok r /\ move_sum 1 1 l' = Ok r' /\ get n_nan l 1 = get n_nan l' 1 /\
  n_eqb (get n_nan r 1) #0 = true /\ n_eqb (get n_nan r' 1) #1 = true.
Proof. exists [#(2 ^ 60); #1], [#0; #1]. do 2 eexists. split; [reflexivity|]. split; [reflexivity|]. split; [reflexivity|]. split; vm_compute; reflexivity. Qed.
Print Assumptions C129_float_window_only_refuted.

(** sums of two of 1, NaN, 2, 3 *)
Example C129_case : match move_sum 2 1 [#1; fNaN; #2; #3] with Ok r => f_same_list r [#1; #1; #2; #5] | Err _ => false end = true /\
  match move_sum 2 2 [#1; fNaN; #2; #3] with Ok r => f_same_list r [fNaN; fNaN; fNaN; #5] | Err _ => false end = true.
Proof. split; vm_compute; reflexivity. Qed.
Example C129_case_hypotheses : float_series [#1; fNaN; #2; #3] (fun i => nth i [Some 1%R; None; Some 2%R; Some 3%R] None) /\
  window_numbers (fun i => nth i [Some 1%R; None; Some 2%R; Some 3%R] None) 2 2 = [2%R].
Proof.
  split; [|reflexivity]. intros i Hi. destruct i as [|[|[|[|i]]]]; cbn [length] in Hi; try lia; cbn [nth get]; try reflexivity; apply num_ofZ; lia.
Qed.
