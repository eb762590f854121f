(** * Property C108 in float64: unit of the rain rate *)
From Coq Require Import List ZArith Bool Reals Lia.
From Flocq Require Import Core IEEE754.BinarySingleNaN.
From Verif Require Import Base Num NumF64 NumList NearbyWetdry_props Stats_model Scale64_proofs MetricUnit64_spec MetricUnit64_proofs.
Import ListNotations.
Local Open Scope nat_scope.

(** Multiplying both series and the threshold by a power of two (mm/h to mm per
    15 minutes) changes no bit of the dimensionless metrics and multiplies the
    others exactly. *)
Theorem C108_power_of_two : forall (c : F64) j, power_of_two c j -> (Z.abs j <= 100)%Z ->
  forall (r p : list F64) n t, length r = n -> length p = n -> (Z.of_nat n <= 2 ^ 20)%Z -> usual_rates r -> usual_rates p -> usual_size t ->
  let s := fun x : F64 => n_mul c x in
  exists e e', calc_rain_error_performance_metrics (mk_arr [n] r) (mk_arr [n] p) t = Ok e /\
  calc_rain_error_performance_metrics (mk_arr [n] (map s r)) (mk_arr [n] (map s p)) (s t) = Ok e' /\
  pearson_correlation e' = pearson_correlation e /\ coefficient_of_variation e' = coefficient_of_variation e /\
  root_mean_square_error e' = s (root_mean_square_error e) /\ mean_absolute_error e' = s (mean_absolute_error e) /\
  R_sum_reference e' = s (R_sum_reference e) /\ R_sum_predicted e' = s (R_sum_predicted e) /\
  R_mean_reference e' = s (R_mean_reference e) /\ R_mean_predicted e' = s (R_mean_predicted e) /\
  re_false_wet_rate e' = re_false_wet_rate e /\ re_missed_wet_rate e' = re_missed_wet_rate e /\
  false_wet_precipitation_rate e' = s (false_wet_precipitation_rate e) /\
  missed_wet_precipitation_rate e' = s (missed_wet_precipitation_rate e) /\
  re_N_nan_pairs e' = re_N_nan_pairs e /\ re_N_all_pairs e' = re_N_all_pairs e.
Proof. exact rain_unit64. Qed.
Print Assumptions C108_power_of_two.

Definition tenth : F64 := n_div (#1 : F64) #10.
Definition demo_ref : list F64 := [tenth; n_mul (#2 : F64) tenth; fNaN; n_mul (#4 : F64) tenth].
Definition demo_pred : list F64 := [n_mul (#7 : F64) tenth; tenth; tenth; #1].
Definition demo_metrics (c : F64) := calc_rain_error_performance_metrics (mk_arr [4] (map (n_mul c) demo_ref)) (mk_arr [4] (map (n_mul c) demo_pred)) (n_mul c tenth).

(** a quarter: every metric exactly as stated *)
Example C108_case_quarter :
  match demo_metrics #1, demo_metrics (n_div (#1 : F64) #4) with
  | Ok e, Ok e' => f_same_list [pearson_correlation e'; coefficient_of_variation e'; n_mul (#4 : F64) (root_mean_square_error e'); n_mul (#4 : F64) (mean_absolute_error e'); n_mul (#4 : F64) (R_sum_reference e')]
      [pearson_correlation e; coefficient_of_variation e; root_mean_square_error e; mean_absolute_error e; R_sum_reference e]
  | _, _ => false end = true.
Proof. vm_compute. reflexivity. Qed.

(** Other factors change the rounding errors: with rates from five-minute sums
    (factor 12) the correlation and the sum are not exactly the same. *)
Theorem C108_other_factors_refuted : exists e e',
  demo_metrics #1 = Ok e /\ demo_metrics #12 = Ok e' /\
  n_eqb (pearson_correlation e') (pearson_correlation e) = false /\ n_eqb (coefficient_of_variation e') (coefficient_of_variation e) = false /\
  n_eqb (R_sum_reference e') (n_mul (#12 : F64) (R_sum_reference e)) = false.
Proof.
  destruct (ok_check (demo_metrics #1) (fun e => match demo_metrics #12 with Ok e' =>
     negb (n_eqb (pearson_correlation e') (pearson_correlation e)) && negb (n_eqb (coefficient_of_variation e') (coefficient_of_variation e)) &&
     negb (n_eqb (R_sum_reference e') (n_mul (#12 : F64) (R_sum_reference e))) | Err _ => false end)) as (e & E & C); [vm_compute; reflexivity|].
  destruct (demo_metrics #12) as [e'|] eqn:E'; [|discriminate C]. exists e, e'.
  apply andb_prop in C as [C C3]. apply andb_prop in C as [C1 C2]. apply negb_true_iff in C1, C2, C3.
  exact (conj E (conj eq_refl (conj C1 (conj C2 C3)))).
Qed.
Print Assumptions C108_other_factors_refuted.

(** So do powers of two where a square underflows: an error of 2^-600 has the
    RMSE 0, multiplied by 2^100 it does not. *)
Definition pow2 (k : nat) : F64 := Nat.iter k (fun x : F64 => n_mul (#2 : F64) x) #1.
Theorem C108_tiny_rates_refuted : exists (c x : F64) e e', n_ltb #0 x = true /\ power_of_two c 100 /\
  calc_rain_error_performance_metrics (mk_arr [1] [#0]) (mk_arr [1] [x]) #0 = Ok e /\
  calc_rain_error_performance_metrics (mk_arr [1] [n_mul c #0]) (mk_arr [1] [n_mul c x]) (n_mul c #0) = Ok e' /\
  n_eqb (root_mean_square_error e) #0 = true /\ n_ltb #0 (root_mean_square_error e') = true.
Proof.
  set (c := pow2 100). set (x := n_div (#1 : F64) (pow2 600)).
  destruct (ok_check (calc_rain_error_performance_metrics (mk_arr [1] [#0]) (mk_arr [1] [x]) #0) (fun e => n_eqb (root_mean_square_error e) #0)) as (e & E & C); [vm_compute; reflexivity|].
  destruct (ok_check (calc_rain_error_performance_metrics (mk_arr [1] [n_mul c #0]) (mk_arr [1] [n_mul c x]) (n_mul c #0)) (fun e => n_ltb #0 (root_mean_square_error e))) as (e' & E' & C'); [vm_compute; reflexivity|].
  exists c, x, e, e'. split; [vm_compute; reflexivity|]. split; [exact (power_sf c (Pos.pow 2 52) 48 52 ltac:(vm_compute; reflexivity) eq_refl ltac:(lia))|]. exact (conj E (conj E' (conj C C'))).
Qed.
Print Assumptions C108_tiny_rates_refuted.

(** the hypotheses hold for the first example *)
Lemma usual_demo (x : F64) : n_eqb x (n_ofZ 0) || (n_leb (n_div (#1 : F64) (pow2 47)) (n_abs x) && n_leb (n_abs x) (pow2 100)) = true -> usual_size x.
Proof.
  apply usual_check.
  - exact (power_sf (n_div (#1 : F64) (pow2 47)) (Pos.pow 2 52) (-99) 52 ltac:(vm_compute; reflexivity) eq_refl ltac:(lia)).
  - exact (power_sf (pow2 100) (Pos.pow 2 52) 48 52 ltac:(vm_compute; reflexivity) eq_refl ltac:(lia)).
Qed.
Example C108_case_hypotheses : power_of_two (n_div (#1 : F64) #4) (-2) /\ usual_rates demo_ref /\ usual_rates demo_pred /\ usual_size tenth.
Proof.
  split; [exact (power_sf (n_div (#1 : F64) #4) (Pos.pow 2 52) (-54) 52 ltac:(vm_compute; reflexivity) eq_refl ltac:(lia))|].
  split; [|split; [|apply usual_demo; vm_compute; reflexivity]]; intros x Hx; simpl in Hx;
    repeat (destruct Hx as [<-|Hx]; [first [left; vm_compute; reflexivity|right; apply usual_demo; vm_compute; reflexivity]|]); destruct Hx.
Qed.
