(** * Property C121: the documented workflow from raw levels to rain rate *)
From Coq Require Import List ZArith Bool Reals String Lia.
From Verif Require Import Base Num NumF64 NumList Libm Libm64 Baseline_spec KR_model KR_spec Chain_model Chain_spec BaselineFloat_spec Chain_props
  Workflow_model Workflow_spec Workflow_proofs Workflow_proofs2.
Import ListNotations.
Local Open Scope nat_scope.
Local Notation length := List.length.
Notation no_infinity tsl rsl :=
  (forall t, t < length tsl -> n_isinf (get n_nan tsl t) = false /\ n_isinf (get n_nan rsl t) = false) (only parsing).

(** measured samples are kept, and only gaps of at most [max_gap] between
    measured samples are filled *)
Theorem C121_only_short_gaps_are_filled : forall (p : raw_par F64) (x tsl rsl : list F64),
  length rsl = length tsl -> no_infinity tsl rsl ->
  length (prepared p x tsl rsl) = length tsl /\
  forall t, t < length tsl ->
    (measured (rp_fill_t p) (rp_fill_r p) tsl rsl t ->
       get n_nan (prepared p x tsl rsl) t = n_sub (get n_nan tsl t) (get n_nan rsl t)) /\
    (~ missing (get n_nan (prepared p x tsl rsl) t) -> bridged (rp_fill_t p) (rp_fill_r p) x (rp_max_gap p) tsl rsl t).
Proof.
  intros p x tsl rsl HL HI. split; [apply loss_length; auto|]. intros t Ht. split; [apply (loss_measured F64sem); auto|].
  intros H. apply (valid_bridged F64sem); auto. apply not_true_is_false. exact H.
Qed.
Print Assumptions C121_only_short_gaps_are_filled.

(** In exact arithmetic the filled values lie on the straight line between the
    neighbouring values, so between these values. *)
Theorem C121_filled_on_line_exact : forall (p : raw_par XR) (x tsl rsl : list XR) i t j a b r0 r r1,
  length rsl = length tsl -> no_infinity tsl rsl ->
  in_gap (measured (rp_fill_t p) (rp_fill_r p) tsl rsl) (length tsl) i t j -> short x (rp_max_gap p) i j ->
  get n_nan x i = XFin r0 -> get n_nan x t = XFin r -> get n_nan x j = XFin r1 -> (r0 < r < r1)%R ->
  n_sub (get n_nan tsl i) (get n_nan rsl i) = XFin a -> n_sub (get n_nan tsl j) (get n_nan rsl j) = XFin b ->
  exists v, get n_nan (prepared p x tsl rsl) t = XFin v /\
    v = (a + (b - a) * ((r - r0) / (r1 - r0)))%R /\ (Rmin a b <= v <= Rmax a b)%R.
Proof. exact loss_line. Qed.
Print Assumptions C121_filled_on_line_exact.

(** fill values 255 and -99, gaps of at most 3 time units are filled; window 3, threshold 1 *)
Definition demo_raw : raw_par F64 := mk_raw_par (#255) (#(-99)) (#3) 3 (#1).
(** a stand-in for the standard deviation *)
Definition demo_std (v : list F64) : F64 := n_abs (n_sub (last v n_nan) (hd n_nan v)).
Definition hours (n : nat) : list F64 := map (fun i => n_ofZ (Z.of_nat i)) (seq 0 n).

Example C121_case_gaps : (* the second gap is too long, the last one has no end *)
  f_same_list
    (prepared demo_raw (hours 12) [#50; #50; #50; #255; #50; #50; #50; #50; #50; #50; #50; #50]
       [#40; #40; fNaN; #40; #34; #(-99); #(-99); #(-99); #40; #30; #40; #(-99)])
    [#10; #10; #12; #14; #16; fNaN; fNaN; fNaN; #10; #20; #10; fNaN] = true.
Proof. vm_compute. reflexivity. Qed.

(** the workflow gives a rain rate or a missing value everywhere, and rain
    rates only where the loss is measured or filled *)
Theorem C121_total : forall (L : libm F64) cubic std (p : raw_par F64) (x tsl rsl : list F64) n m dt tau (k : kr_args F64),
  pow_sane L -> plain_coefficients k -> 1 <= n -> n_eqb tau (n_ofZ 0) = false ->
  length rsl = length tsl -> no_infinity tsl rsl ->
  exists R, workflow L cubic std p x tsl rsl n m dt tau k = Ok R /\ length R = length tsl /\
    forall t, t < length tsl ->
      (missing (get n_nan R t) \/ nonneg (get n_nan R t)) /\
      (~ missing (get n_nan R t) -> bridged (rp_fill_t p) (rp_fill_r p) x (rp_max_gap p) tsl rsl t).
Proof.
  intros L cubic std p x tsl rsl n m dt tau k sane Hk Hn Ht HL HI.
  exact (workflow_total F64sem L cubic std p x tsl rsl HL HI sane n m dt tau k Hk Hn Ht).
Qed.
Print Assumptions C121_total.

Example C121_case :
  match workflow F64demo no_cubic demo_std demo_raw (hours 8) (repeat (#50) 8) [#40; #40; #(-99); #40; #30; #30; #40; #40]
          1 (#2) (#1) (#6) demo_args with
  | Ok R => f_same_list R [#0; #0; #0; #0; #81; f_div (#289) (#4); #0; #0] | Err _ => false end = true.
Proof. vm_compute. reflexivity. Qed.

(** Rain is only detected where the whole window around the step lies in the
    record and every sample of it is measured or in a short gap - whatever the
    standard deviation is. *)
Theorem C121_rain_needs_complete_window :
  forall (L : libm F64) cubic std (p : raw_par F64) (x tsl rsl : list F64) n m dt tau (k : kr_args F64) R t,
  pow_sane L -> pow_zero L -> plain_coefficients k -> nonneg m -> n_eqb tau (n_ofZ 0) = false ->
  length rsl = length tsl -> no_infinity tsl rsl ->
  workflow L cubic std p x tsl rsl n m dt tau k = Ok R -> t < length tsl ->
  n_isinf (get n_nan (prepared p x tsl rsl) t) = false ->
  n_ltb (n_ofZ 0) (get n_nan R t) = true ->
  forall i, in_window (rp_window p) t i ->
    i < length tsl /\ bridged (rp_fill_t p) (rp_fill_r p) x (rp_max_gap p) tsl rsl i.
Proof.
  intros L cubic std p x tsl rsl n m dt tau k R t sane pz Hk Hm Ht HL HI.
  exact (workflow_window F64sem L cubic std p x tsl rsl HL HI sane pz n m dt tau k R t Hk Hm Ht).
Qed.
Print Assumptions C121_rain_needs_complete_window.

Example C121_case_window : (* the rain of steps 4 and 5 as above; sample 6 is lost for good: no rain at step 5 *)
  match workflow F64demo no_cubic demo_std demo_raw (hours 8) (repeat (#50) 8) [#40; #40; #40; #40; #30; #30; #(-99); #(-99)]
          1 (#2) (#1) (#6) demo_args with
  | Ok R => f_same_list R [#0; #0; #0; #0; #81; #0; fNaN; fNaN] | Err _ => false end = true.
Proof. vm_compute. reflexivity. Qed.

(** If the baseline averages over at most half a window, the rain rate is
    missing exactly where the loss is missing. *)
Theorem C121_missing_iff_loss_missing :
  forall (L : libm F64) cubic std (p : raw_par F64) (x tsl rsl : list F64) n m dt tau (k : kr_args F64) R,
  pow_sane L -> plain_coefficients k -> 1 <= n <= rp_window p / 2 -> (Z.of_nat n < 2 ^ 53)%Z -> n_eqb tau (n_ofZ 0) = false ->
  length rsl = length tsl ->
  (forall t, t < length tsl -> n_isnan (get n_nan (prepared p x tsl rsl) t) = false -> moderate (get n_nan (prepared p x tsl rsl) t)) ->
  workflow L cubic std p x tsl rsl n m dt tau k = Ok R ->
  forall t, t < length tsl -> (missing (get n_nan R t) <-> missing (get n_nan (prepared p x tsl rsl) t)).
Proof. exact workflow_missing64. Qed.
Print Assumptions C121_missing_iff_loss_missing.

(** With a longer average, one missing loss makes the rain rate of the next
    event missing although its loss is there. *)
Theorem C121_long_average_refuted : exists (p : raw_par F64) (x tsl rsl R : list F64) n t,
  rp_window p / 2 < n /\ length rsl = length tsl /\
  workflow F64demo no_cubic demo_std p x tsl rsl n (#2) (#1) (#6) demo_args = Ok R /\
  t < length tsl /\ missing (get n_nan R t) /\ ~ missing (get n_nan (prepared p x tsl rsl) t).
Proof.
  destruct (ok_check (workflow F64demo no_cubic demo_std (mk_raw_par (#255) (#(-99)) (#1) 3 (#1)) (hours 8) (repeat (#50) 8)
     [#40; #(-99); #40; #40; #30; #30; #40; #40] 3 (#2) (#1) (#6) demo_args) (fun R => n_isnan (get n_nan R 4))) as (R & E & H).
  - vm_compute. reflexivity.
  - eexists _, _, _, _, R, 3, 4. split; [|split; [|split; [exact E|]]].
    + cbn. auto.
    + reflexivity.
    + split; [cbn; lia|]. split; [exact H|]. unfold missing. apply not_true_iff_false. vm_compute. reflexivity.
Qed.
Print Assumptions C121_long_average_refuted.

(** Later data does not change rain rates whose window ends before it, if the
    last sample before it is measured. *)
Theorem C121_later_data :
  forall (L : libm F64) cubic std (p : raw_par F64) (x1 tsl1 rsl1 x2 tsl2 rsl2 : list F64) n m dt tau (k : kr_args F64) R1 R2 s t,
  plain_coefficients k ->
  length rsl1 = length tsl1 -> length rsl2 = length tsl2 -> s <= length tsl1 -> s <= length tsl2 ->
  (forall t, t < s -> get n_nan x1 t = get n_nan x2 t /\ get n_nan tsl1 t = get n_nan tsl2 t /\ get n_nan rsl1 t = get n_nan rsl2 t) ->
  n_isinf (get n_nan tsl1 (s - 1)) = false -> n_isinf (get n_nan rsl1 (s - 1)) = false ->
  measured (rp_fill_t p) (rp_fill_r p) tsl1 rsl1 (s - 1) ->
  workflow L cubic std p x1 tsl1 rsl1 n m dt tau k = Ok R1 -> workflow L cubic std p x2 tsl2 rsl2 n m dt tau k = Ok R2 ->
  t < s -> t + rp_window p <= s + rp_window p / 2 -> get n_nan R1 t = get n_nan R2 t.
Proof. exact (workflow_later F64sem). Qed.
Print Assumptions C121_later_data.

(** The last steps before it do change: a rain event at the end of a record
    has rain rate 0 until more data arrives. *)
Theorem C121_last_steps_refuted : exists (p : raw_par F64) (tsl rsl tsl' rsl' R R' : list F64) t,
  (forall i, i < length tsl -> measured (rp_fill_t p) (rp_fill_r p) tsl rsl i) /\ t < length tsl /\
  (length rsl = length tsl /\ length rsl' = length tsl') /\
  workflow F64demo no_cubic demo_std p (hours (length tsl)) tsl rsl 1 (#2) (#1) (#6) demo_args = Ok R /\
  workflow F64demo no_cubic demo_std p (hours (length (tsl ++ tsl'))) (tsl ++ tsl') (rsl ++ rsl') 1 (#2) (#1) (#6) demo_args = Ok R' /\
  n_eqb (get n_nan R t) (n_ofZ 0) = true /\ n_ltb (n_ofZ 0) (get n_nan R' t) = true.
Proof.
  destruct (ok_check (workflow F64demo no_cubic demo_std demo_raw (hours 5) [#50; #50; #50; #50; #50] [#40; #40; #40; #40; #30]
    1 (#2) (#1) (#6) demo_args) (fun R => n_eqb (get n_nan R 4) (n_ofZ 0))) as (R & E & H); [vm_compute; reflexivity|].
  destruct (ok_check (workflow F64demo no_cubic demo_std demo_raw (hours 6) [#50; #50; #50; #50; #50; #50] [#40; #40; #40; #40; #30; #30]
    1 (#2) (#1) (#6) demo_args) (fun R => n_ltb (n_ofZ 0) (get n_nan R 4))) as (R' & E' & H'); [vm_compute; reflexivity|].
  exists demo_raw, [#50; #50; #50; #50; #50], [#40; #40; #40; #40; #30], [#50], [#30], R, R', 4.
  split; [|split; [cbn; lia|split; [split; reflexivity|split; [exact E|split; [exact E'|split; [exact H|exact H']]]]]].
  intros i Hi. do 5 (destruct i as [|i]; [repeat split; vm_compute; reflexivity|]). cbn in Hi. lia.
Qed.
Print Assumptions C121_last_steps_refuted.
