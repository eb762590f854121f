(** * Properties C02 and C04 in binary64: rounding of the event mean *)
From Coq Require Import Reals Lra Lia ZArith Bool List.
From Verif Require Import Base Num NumF64 NumList RealStat Baseline_model Baseline_spec Baseline_proofs Baseline_proofs2 HaversineFloat_spec HaversineFloat_proofs FloatErr_spec BaselineErr_proofs.
Import ListNotations.
Local Open Scope R_scope.

(** the baseline of an event is the exact mean of the [n] values before it, up
    to 4 units in the last place for each of them *)
Theorem C02_float_event_mean : forall (trsl wet : list F64) n s i b before, baseline_constant trsl wet n = Ok b -> (n <= s)%nat -> (i < length trsl)%nat -> event_from wet s i -> INR n <= 2 ^ 20 ->
  are_nums (slice (s - n) s b) before -> (forall v, In v before -> Rabs v <= 2 ^ 500) ->
  length before = n /\ exists v, is_num (get n_nan b i) v /\ Rabs (v - rmean before) <= 4 * INR n / 2 ^ 53 * rmean (map Rabs before) + / 2 ^ 1072.
Proof. exact event_mean_num. Qed.
Print Assumptions C02_float_event_mean.

(** The baseline leaves the range of the levels by rounding errors only.  They
    can add up from event to event, because an average may run over the
    baseline of an earlier event. *)
Theorem C04_float_range : forall (trsl wet : list F64) n lo hi M, (1 <= n)%nat -> length wet = length trsl -> INR n <= 2 ^ 20 -> INR n * INR (length trsl) <= 2 ^ 30 ->
  0 <= M <= 2 ^ 400 -> - M <= lo -> hi <= M -> (forall x, In x trsl -> exists r, is_num x r /\ lo <= r <= hi) ->
  exists b, baseline_constant trsl wet n = Ok b /\
  forall i, (i < length trsl)%nat -> exists v, is_num (get n_nan b i) v /\ lo - INR i * (INR n / 2 ^ 50 * M + / 2 ^ 1060) <= v <= hi + INR i * (INR n / 2 ^ 50 * M + / 2 ^ 1060).
Proof. exact constant_range_num. Qed.
Print Assumptions C04_float_range.

(** the series of C02_case: its first event averages 3 and 5 *)
Example C02_case_float : exists b, baseline_constant [#3; #5; #9; #8; #6; #7] [#0; #0; #1; #1; #0; #1] 2 = Ok b /\ event_from [#0; #0; #1; #1; #0; #1] 2 3 /\ are_nums (slice (2 - 2) 2 b) [3; 5].
Proof.
  destruct (constant_exists [#3; #5; #9; #8; #6; #7] [#0; #0; #1; #1; #0; #1] 2 ltac:(lia) eq_refl) as (b & E). exists b. split; [exact E|]. split.
  - split; [lia|]. split; [unfold flagged_wet; vm_compute; discriminate|]. intros j Hj. assert (j = 2 \/ j = 3)%nat as [-> | ->] by lia; vm_compute; reflexivity.
  - destruct (constant_rec _ _ _ _ E) as (L & R). destruct (R 0%nat) as (A0 & _); [simpl; lia|]. destruct (R 1%nat) as (A1 & _); [simpl; lia|]. specialize (A0 ltac:(lia)). specialize (A1 ltac:(lia)).
    destruct b as [|x [|y b]]; try discriminate L. change (x = #3) in A0. change (y = #5) in A1. subst x y. change (are_nums [#3; #5] [3; 5]). repeat constructor; apply num_ofZ; lia.
Qed.
Example C04_case_float : forall x, In x [#3; #5; #9; #8; #6; #7] -> exists r, is_num x r /\ 3 <= r <= 9.
Proof.
  assert (A : forall z, (3 <= z <= 9)%Z -> exists r, is_num (#z) r /\ 3 <= r <= 9) by (intros z B; exists (IZR z); split; [apply num_ofZ; lia|split; apply IZR_le; lia]).
  intros x I. repeat (destruct I as [<-|I]; [apply A; lia|]). destruct I.
Qed.
