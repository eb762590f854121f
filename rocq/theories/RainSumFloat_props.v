(** * Property C145 in binary64: how accurate rain sums, means and accumulations are *)
From Coq Require Import List ZArith Bool Reals Lra Lia.
From Verif Require Import Base Num NumF64 NumList RealStat HaversineFloat_spec HaversineFloat_proofs FloatErr_spec ReaggFloat_spec NearbyNb_model NearbyNb_spec NearbyNb_proofs RainSum_model RainSum_spec RainSumFloat_spec RainSumFloat_proofs.
Import ListNotations.
Local Open Scope R_scope.

(** The sum of a bin over [c] is within 2^-51 of the exact one for each measured
    sample and one more (and an absolute error far below any rain). *)
Theorem C145_sums_float : forall (w : Z) (c : F64) (cr : R) (times : list Z) (l : list F64) (a : Z) (N : nat),
  (0 < w)%Z -> is_num c cr -> 1 <= cr -> ascending times -> times <> [] -> length l = length times -> bins w times a N -> (forall v, In v l -> plain_rate v) -> modest l ->
  length (rain_sums w c times l) = N /\ forall n, (n < N)%nat -> let b := (a + w * Z.of_nat n)%Z in
  nearly (S (measured_in times l b (b + w))) (sum_in times (exactly l) b (b + w) / cr) (get n_nan (rain_sums w c times l) n).
Proof. exact rain_sums_model. Qed.
Print Assumptions C145_sums_float.

(** whatever the order in which numpy adds *)
Theorem C145_sums_float_any_order : forall f (w : Z) (c : F64) (cr : R) (times : list Z) (l : list F64) (a : Z) (N : nat),
  (0 < w)%Z -> is_num c cr -> 1 <= cr -> ascending times -> times <> [] -> length l = length times -> bins w times a N -> sums f -> (forall v, In v l -> plain_rate v) -> modest l ->
  length (sums_by f w times l) = N /\ forall n, (n < N)%nat -> let b := (a + w * Z.of_nat n)%Z in
  nearly (S (measured_in times l b (b + w))) (sum_in times (exactly l) b (b + w) / cr) (n_div (get n_nan (sums_by f w times l) n) c).
Proof. exact (fun f w c cr times l a N HW IC C1 HA HN E B S H M => rain_sums_float f w c cr times l a N HW IC C1 HA HN E B S H (modest_fits l M)). Qed.
Print Assumptions C145_sums_float_any_order.

(** the means likewise, where something was measured *)
Theorem C145_means_float : forall (w : Z) (times : list Z) (l : list F64) (a : Z) (N : nat),
  (0 < w)%Z -> ascending times -> times <> [] -> length l = length times -> bins w times a N -> (forall v, In v l -> plain_rate v) -> modest l ->
  length (rain_means w times l) = N /\ forall n, (n < N)%nat -> let b := (a + w * Z.of_nat n)%Z in let k := measured_in times l b (b + w) in (0 < k)%nat ->
  nearly (S k) (sum_in times (exactly l) b (b + w) / INR k) (get n_nan (rain_means w times l) n).
Proof. exact rain_means_model. Qed.
Print Assumptions C145_means_float.

(** in any order of summation, too *)
Theorem C145_means_float_any_order : forall f (w : Z) (times : list Z) (l : list F64) (a : Z) (N : nat),
  (0 < w)%Z -> ascending times -> times <> [] -> length l = length times -> bins w times a N -> sums f -> (forall v, In v l -> plain_rate v) -> modest l ->
  forall n, (n < N)%nat -> let b := (a + w * Z.of_nat n)%Z in let k := measured_in times l b (b + w) in (0 < k)%nat ->
  nearly (S k) (sum_in times (exactly l) b (b + w) / INR k) (n_div (get n_nan (sums_by f w times l) n) (n_ofZ (Z.of_nat k))).
Proof. exact (fun f w times l a N HW HA HN E B S H M => rain_means_float f w times l a N HW HA HN E B S H (modest_fits l M)). Qed.
Print Assumptions C145_means_float_any_order.

(** The accumulation up to sample [i]; it is exact before the first measured sample. *)
Theorem C145_accumulation_float : forall (c : F64) (cr : R) (l : list F64) (i : nat), is_num c cr -> 1 <= cr -> (forall v, In v l -> plain_rate v) -> modest l -> (i < length l)%nat ->
  let b := firstn (S i) l in nearly (2 * measured b) (rsum (map part (exactly b)) / cr) (get n_nan (accumulation c l) i).
Proof. exact accumulation_float. Qed.
Print Assumptions C145_accumulation_float.

(** ten samples of 0.1 mm/h: the accumulation is 0.9999999999999999, not 1 *)
Definition C145_tenths : list F64 := repeat (n_lit 1 1) 10.
Example C145_case_tenths : n_ltb (get n_nan (accumulation #1 C145_tenths) 9) #1 = true /\ n_ltb (n_sub #1 (get n_nan (accumulation #1 C145_tenths) 9)) (n_lit 1 15) = true.
Proof. split; vm_compute; reflexivity. Qed.
Example C145_case_modest : modest [#6; fNaN; #3].
Proof.
  assert (E : forall z, (Z.abs z <= 2 ^ 53)%Z -> f_val (n_ofZ z : F64) = XFin (IZR z)) by (exact num_ofZ).
  split; [cbn [length]; simpl; lra|]. unfold exactly. cbn [map]. rewrite !E by lia. cbn [part]. change (part (f_val fNaN)) with 0. unfold rsum. cbn [fold_right].
  assert (1 <= 2 ^ 889) by (apply pow_R1_Rle; lra). replace (2 ^ 899) with (1024 * 2 ^ 889) by (change 899%nat with (10 + 889)%nat; rewrite pow_add; simpl (2 ^ 10); lra). lra.
Qed.
