(** * The wet/dry rates and the Matthews correlation in binary64 (C51, C52) *)
From Coq Require Import List ZArith Bool Lia Reals.
From Verif Require Import Base Num NumF64 NumList NpOps Stats_model Stats_spec StatsFloat_proofs.
Import ListNotations.
Local Open Scope nat_scope.

(** each rate lies in [0,1]; the two rates of a class, added in binary64, give exactly 1; a rate is 1 only if nothing is missed *)
Theorem C51_rates_in_float : forall (r p : list F64) n, length r = n -> length p = n -> (Z.of_nat n <= 2 ^ 53)%Z ->
  exists w, calc_wet_dry_performance_metrics (mk_arr [n] r) (mk_arr [n] p) = Ok w /\
  (N_wet_reference w <> 0 ->
     n_eqb (n_add (wd_true_wet_rate w) (wd_missed_wet_rate w)) (n_ofZ 1) = true /\
     n_leb (n_ofZ 0) (wd_true_wet_rate w) = true /\ n_leb (wd_true_wet_rate w) (n_ofZ 1) = true /\
     n_leb (n_ofZ 0) (wd_missed_wet_rate w) = true /\ n_leb (wd_missed_wet_rate w) (n_ofZ 1) = true /\
     (n_eqb (wd_true_wet_rate w) (n_ofZ 1) = true <-> N_missed_wet w = 0) /\
     (n_eqb (wd_missed_wet_rate w) (n_ofZ 1) = true <-> N_true_wet w = 0)) /\
  (N_dry_reference w <> 0 ->
     n_eqb (n_add (wd_true_dry_rate w) (wd_false_wet_rate w)) (n_ofZ 1) = true /\
     n_leb (n_ofZ 0) (wd_true_dry_rate w) = true /\ n_leb (wd_true_dry_rate w) (n_ofZ 1) = true /\
     n_leb (n_ofZ 0) (wd_false_wet_rate w) = true /\ n_leb (wd_false_wet_rate w) (n_ofZ 1) = true /\
     (n_eqb (wd_true_dry_rate w) (n_ofZ 1) = true <-> N_false_wet w = 0) /\
     (n_eqb (wd_false_wet_rate w) (n_ofZ 1) = true <-> N_true_dry w = 0)).
Proof. exact wd_rates_float. Qed.
Print Assumptions C51_rates_in_float.

(** one of three wet samples is found: 1/3 and 2/3 are both rounded, their sum is 1 *)
Example C51_case_float :
  match calc_wet_dry_performance_metrics (mk_arr [4] [#1; #1; #1; #0]) (mk_arr [4] [#1; #0; #0; #0]) with
  | Ok w => f_same_list [wd_true_wet_rate w; wd_missed_wet_rate w; n_add (wd_true_wet_rate w) (wd_missed_wet_rate w)] [f_div #1 #3; f_div #2 #3; #1]
  | Err _ => false end = true.
Proof. vm_compute. reflexivity. Qed.

(** at most 2^-49 away from the exact coefficient *)
Theorem C52_matthews_close : forall (r p : list F64) n, length r = n -> length p = n -> (Z.of_nat n <= 2 ^ 26)%Z ->
  exists w, calc_wet_dry_performance_metrics (mk_arr [n] r) (mk_arr [n] p) = Ok w /\
  let tp := N_true_wet w in let tn := N_true_dry w in let fp := N_false_wet w in let fn := N_missed_wet w in
  (tp + fp <> 0 -> tp + fn <> 0 -> tn + fp <> 0 -> tn + fn <> 0 -> exists m,
     f_val (wd_matthews_correlation w) = XFin m /\
     (Rabs (m - mcc_real (INR tp) (INR tn) (INR fp) (INR fn)) <= / IZR (2 ^ 49))%R /\ (Rabs m <= 1 + / IZR (2 ^ 49))%R).
Proof. exact wd_matthews_close. Qed.
Print Assumptions C52_matthews_close.

(** a correlation of at most 1, and of 1 for a perfect prediction, is not kept by rounding:
    three wet samples and a dry one, all right, give more than 1; two wet samples and a dry one less than 1 *)
Theorem C52_perfect_is_not_one_refuted :
  (exists (x : list F64) w, calc_wet_dry_performance_metrics (mk_arr [length x] x) (mk_arr [length x] x) = Ok w /\
     N_false_wet w = 0 /\ N_missed_wet w = 0 /\ n_ltb (n_ofZ 1) (wd_matthews_correlation w) = true) /\
  (exists (x : list F64) w, calc_wet_dry_performance_metrics (mk_arr [length x] x) (mk_arr [length x] x) = Ok w /\
     N_false_wet w = 0 /\ N_missed_wet w = 0 /\ n_ltb (wd_matthews_correlation w) (n_ofZ 1) = true).
Proof.
  split; [exists [#1; #1; #1; #0]|exists [#1; #1; #0]]; eexists; (split; [reflexivity|]); split; [reflexivity| |reflexivity|]; (split; [reflexivity|]); vm_compute; reflexivity.
Qed.
Print Assumptions C52_perfect_is_not_one_refuted.
