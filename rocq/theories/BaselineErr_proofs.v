(** * Rounding errors of the constant baseline *)
From Coq Require Import Reals Lra Lia ZArith Bool Psatz List.
From Flocq Require Import Core Relative IEEE754.BinarySingleNaN.
From Verif Require Import Base Num NumF64 NumList RealStat Ulp64 Baseline_model Baseline_spec Baseline_proofs Baseline_proofs2 HaversineFloat_spec HaversineFloat_proofs HaversineFloat_proofs2 HaversineAcc_proofs FloatErr_spec FloatErr_proofs IdwFloat_proofs StatsErr_spec StatsErr_proofs MinMaxFloat_proofs RainFloat_proofs.
Import ListNotations.
Local Open Scope R_scope.
Local Arguments bpow : simpl never.

Lemma nums_length l r : are_nums l r -> length l = length r.
Proof. intros H. unfold are_nums in H. induction H; [reflexivity|apply (f_equal Datatypes.S); assumption]. Qed.
Lemma u64_ipow : u64 = / 2 ^ 53.
Proof. rewrite u64_val. change (2 ^ 53)%Z with (2 ^ Z.of_nat 53)%Z. rewrite <- pow_IZR. reflexivity. Qed.
Lemma ipow_small i j : (i <= j)%nat -> / 2 ^ j <= / 2 ^ i.
Proof. intros H. apply Rinv_le_contravar; [apply pow2_pos|apply Rle_pow; [lra|auto]]. Qed.
Lemma pow_split_l i j : 2 ^ i * / 2 ^ (i + j) = / 2 ^ j.
Proof. rewrite pow_add. field. split; apply pow_nonzero; lra. Qed.
Lemma split_err a q M t : 0.5005 * (a * q * M) + / 2 * (a * q * t) = / 2 * q * (a * (1.001 * M + t)).
Proof. lra. Qed.
Lemma three_n0 : 3 * n0 <= / 2 ^ 1072.
Proof. rewrite n0_pow. replace (/ 2 ^ 1072) with (4 * / 2 ^ 1074). 2:{ change 1074%nat with (1072 + 2)%nat. rewrite <- (inv_mul_pow 1072 2). replace (/ 2 ^ 2) with (/ 4) by (simpl; lra). lra. } pose proof (ipow2_pos 1074). lra. Qed.

Lemma event_mean_num (trsl wet : list F64) n s i b before : baseline_constant trsl wet n = Ok b -> (n <= s)%nat -> (i < length trsl)%nat -> event_from wet s i -> INR n <= 2 ^ 20 ->
  are_nums (slice (s - n) s b) before -> (forall v, In v before -> Rabs v <= 2 ^ 500) ->
  length before = n /\ exists v, is_num (get n_nan b i) v /\ Rabs (v - rmean before) <= 4 * INR n / 2 ^ 53 * rmean (map Rabs before) + / 2 ^ 1072.
Proof.
  intros E Hs Hi EV FW AN BD. rewrite (constant_wet _ _ _ _ s i E Hs Hi EV). pose proof (constant_rec _ _ _ _ E) as (LB & _). pose proof (baseline_constant_ok _ _ _ _ E) as (N1 & _ & _).
  assert (S1 : (s <= i)%nat) by (destruct EV; lia).
  assert (LL : length before = n) by (rewrite <- (nums_length _ _ AN); rewrite slice_length by (rewrite ?LB; lia); lia). split; auto.
  assert (NE : before <> []) by (intros ->; simpl in LL; lia).
  destruct (mean_abs_close _ before _ NE ltac:(rewrite LL; auto) AN (n_mean_of _) BD) as (v & V & C). exists v. split; auto. rewrite LL in C. rewrite u64_ipow in C. pose proof three_n0. unfold Rdiv. lra.
Qed.

Lemma constant_range_num (trsl wet : list F64) n lo hi M : (1 <= n)%nat -> length wet = length trsl -> INR n <= 2 ^ 20 -> INR n * INR (length trsl) <= 2 ^ 30 ->
  0 <= M <= 2 ^ 400 -> - M <= lo -> hi <= M -> (forall x, In x trsl -> exists r, is_num x r /\ lo <= r <= hi) ->
  exists b, baseline_constant trsl wet n = Ok b /\
  forall i, (i < length trsl)%nat -> exists v, is_num (get n_nan b i) v /\ lo - INR i * (INR n / 2 ^ 50 * M + / 2 ^ 1060) <= v <= hi + INR i * (INR n / 2 ^ 50 * M + / 2 ^ 1060).
Proof.
  intros N1 LW NN FW BM BL BH H. destruct (constant_exists trsl wet n N1 LW) as (b & E). exists b. split; auto.
  pose proof (constant_rec _ _ _ _ E) as (LB & RC). set (dl := INR n / 2 ^ 50 * M + / 2 ^ 1060).
  pose proof (ipow2_pos 1060) as T0. pose proof (ipow2_pos 50) as T1. assert (P1 : 1 <= INR n) by (apply (le_INR 1); auto).
  assert (D0 : 0 <= dl) by (unfold dl, Rdiv; apply Rplus_le_le_0_compat; [apply Rmult_le_pos; [apply Rmult_le_pos; lra|lra]|lra]).
  assert (TS : forall i, (i < length trsl)%nat -> exists v, is_num (get n_nan trsl i) v /\ lo <= v <= hi) by (intros; apply H, get_In; auto).
  assert (WK : forall x i, (exists v, is_num x v /\ lo <= v <= hi) -> exists v, is_num x v /\ lo - INR i * dl <= v <= hi + INR i * dl).
  { intros x i (v & V & B). exists v. split; auto. assert (0 <= INR i * dl) by (apply Rmult_le_pos; [apply pos_INR|auto]). lra. }
  intros i. induction i as [i IH] using lt_wf_ind. intros Hi. destruct (RC i Hi) as (A1 & A2). unfold nget in *.
  destruct (le_lt_dec n i) as [Hn|Hn]; [|rewrite (A1 Hn); apply WK; auto]. rewrite (A2 Hn).
  destruct (get false (map n_truthy wet) i); [destruct (get false (map n_truthy wet) (i - 1))|apply WK; auto].
  { destruct (IH (i - 1)%nat) as (v & V & B); [lia|lia|]. exists v. split; auto. assert (INR (i - 1) * dl <= INR i * dl) by (apply Rmult_le_compat_r; [auto|apply le_INR; lia]). lra. }
  (* mean of the last n *)
  set (ext := INR (i - 1) * dl).
  assert (ALL : forall x, In x (slice (i - n) i b) -> exists v, is_num x v /\ lo - ext <= v <= hi + ext).
  { intros x Hx. apply In_get with (d := (n_nan : F64)) in Hx as (j & Hj & <-). change (j < length (slice (i - n) i b))%nat in Hj. rewrite slice_length in Hj by lia. rewrite get_slice by lia.
    destruct (IH (i - n + j)%nat) as (v & V & B); [lia|lia|]. exists v. split; auto. assert (INR (i - n + j) * dl <= ext) by (apply Rmult_le_compat_r; [auto|apply le_INR; lia]). lra. }
  set (l := slice (i - n) i b) in *. assert (LL : length l = n) by (unfold l; rewrite slice_length; lia).
  assert (AN : are_nums l (map fr l)). { rewrite <- (map_id l) at 1. apply nums_map. intros x I. destruct (ALL x I) as (r & R & _). eauto. }
  assert (BD : forall v, In v (map fr l) -> lo - ext <= v <= hi + ext). { intros v I. apply in_map_iff in I as (x & <- & I). destruct (ALL x I) as (r & R & B). rewrite (num_fr _ _ R). auto. }
  assert (NE : map fr l <> []) by (destruct l; [simpl in LL; lia|discriminate]). assert (LR : length (map fr l) = n) by (rewrite map_length; auto).
  (* size of the extension *)
  assert (I1 : INR (i - 1) + 1 <= INR (length trsl)) by (rewrite <- S_INR; apply le_INR; lia). assert (I0 : 0 <= INR (i - 1)) by apply pos_INR.
  assert (NI : INR n * INR (i - 1) <= 2 ^ 30) by (apply Rle_trans with (2 := FW), Rmult_le_compat_l; lra).
  assert (NI2 : INR (i - 1) <= 2 ^ 30) by (apply Rle_trans with (2 := NI); rewrite <- (Rmult_1_l (INR (i - 1))) at 1; apply Rmult_le_compat_r; lra).
  assert (EX : 0 <= ext <= / 2 ^ 20 * M + 2 ^ 30 * / 2 ^ 1060).
  { unfold ext. split; [apply Rmult_le_pos; auto|]. unfold dl, Rdiv. replace (INR (i - 1) * (INR n * / 2 ^ 50 * M + / 2 ^ 1060)) with ((INR n * INR (i - 1)) * (/ 2 ^ 50 * M) + INR (i - 1) * / 2 ^ 1060) by ring.
    apply Rplus_le_compat; [|apply Rmult_le_compat_r; lra]. apply Rle_trans with (2 ^ 30 * (/ 2 ^ 50 * M)); [apply Rmult_le_compat_r; [apply Rmult_le_pos; lra|auto]|]. rewrite <- Rmult_assoc. apply Rmult_le_compat_r; [lra|]. simpl. lra. }
  assert (Q30 : / 2 ^ 20 * M <= / 1000 * M) by (apply Rmult_le_compat_r; [lra|simpl; lra]).
  assert (S1070 : 2 ^ 30 * / 2 ^ 1060 = / 2 ^ 1030) by (change 1060%nat with (30 + 1030)%nat; apply pow_split_l).
  assert (AB : forall v, In v (map fr l) -> Rabs v <= 1.001 * M + / 2 ^ 1030) by (intros v I; specialize (BD v I); apply Rabs_le; lra).
  assert (P4 : 2 ^ 401 <= 2 ^ 500) by (apply Rle_pow; [lra|lia]). assert (E401 : 2 ^ 401 = 2 * 2 ^ 400) by (change 401%nat with (Datatypes.S 400); reflexivity).
  assert (S1 : / 2 ^ 1030 <= / 2 ^ 1) by (apply ipow_small; lia). assert (O400 : 1 <= 2 ^ 400) by (apply pow_R1_Rle; lra). replace (/ 2 ^ 1) with (/ 2) in S1 by (simpl; lra).
  destruct (mean_abs_close l (map fr l) (n_mean l) NE ltac:(rewrite LR; auto) AN (n_mean_of _)) as (v & V & C); [intros v I; specialize (AB v I); lra|].
  rewrite LR in C. exists v. split; auto. destruct (rmean_abs_le _ _ NE AB) as (M1 & _). pose proof (rmean_bounds _ _ _ NE BD) as RB.
  assert (ER : Rabs (v - rmean (map fr l)) <= dl).
  { apply Rle_trans with (1 := C). rewrite u64_ipow. pose proof three_n0 as T3. unfold dl.
    apply Rle_trans with (4 * INR n * / 2 ^ 53 * (1.001 * M + / 2 ^ 1030) + / 2 ^ 1072).
    - apply Rplus_le_compat; [|auto]. apply Rmult_le_compat_l; [|auto]. pose proof (ipow2_pos 53). apply Rmult_le_pos; lra.
    - assert (E53 : 4 * / 2 ^ 53 = / 2 * / 2 ^ 50) by (simpl; lra). assert (NM : 0 <= INR n * / 2 ^ 50 * M) by (apply Rmult_le_pos; [apply Rmult_le_pos; lra|lra]).
      assert (SM : INR n * / 2 ^ 50 * / 2 ^ 1030 <= / 2 ^ 1060). { apply Rle_trans with (2 ^ 20 * / 2 ^ 50 * / 2 ^ 1030); [apply Rmult_le_compat_r; [apply Rlt_le, ipow2_pos|]; apply Rmult_le_compat_r; lra|].
        replace (2 ^ 20 * / 2 ^ 50) with (/ 2 ^ 30) by (simpl; lra). rewrite inv_mul_pow. change (30 + 1030)%nat with 1060%nat. lra. }
      assert (S4 : / 2 ^ 1072 <= / 2 * / 2 ^ 1060). { apply Rle_trans with (/ 2 ^ 1061); [apply ipow_small; lia|]. change 1061%nat with (1 + 1060)%nat. rewrite <- (inv_mul_pow 1 1060). replace (/ 2 ^ 1) with (/ 2) by (simpl; lra). lra. }
      replace (4 * INR n * / 2 ^ 53 * (1.001 * M + / 2 ^ 1030)) with (4 * / 2 ^ 53 * (INR n * (1.001 * M + / 2 ^ 1030))) by ring. rewrite E53. unfold Rdiv.
      replace (/ 2 * / 2 ^ 50 * (INR n * (1.001 * M + / 2 ^ 1030))) with (0.5005 * (INR n * / 2 ^ 50 * M) + / 2 * (INR n * / 2 ^ 50 * / 2 ^ 1030)) by (apply split_err). lra. }
  apply Rabs_le_inv in ER. assert (ST : ext + dl <= INR i * dl). { unfold ext. replace (INR (i - 1) * dl + dl) with ((INR (i - 1) + 1) * dl) by ring. apply Rmult_le_compat_r; [auto|]. rewrite <- S_INR. apply le_INR. lia. }
  lra.
Qed.
