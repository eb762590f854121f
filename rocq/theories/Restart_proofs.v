(** * Wet antenna attenuation and rain rates do not remember what happened before a dry step *)
From Coq Require Import List ZArith Bool String Lia Arith Reals Lra.
From Flocq Require Import Core BinarySingleNaN.
From Verif Require Import Base Num NumF64 NumList Libm RealSpec Baseline_model Baseline_spec Baseline_proofs Baseline_proofs2
  Schleiss_model Schleiss_spec Schleiss_proofs KR_model KR_spec KR_proofs Chain_model Chain_spec Chain_proofs.
Import ListNotations.
Local Open Scope nat_scope.
Local Notation length := List.length.

Lemma get_skipn {A} (d : A) t l i : get d (skipn t l) i = get d l (t + i).
Proof. apply nth_skipn_plus. Qed.

Section Any.
Context {O : numops}.

Lemma schleiss_ok (rsl baseline wet : list O) m dt tau waa :
  length baseline = length rsl -> length wet = length rsl ->
  waa_schleiss_2013 rsl baseline wet m dt tau = Ok waa ->
  length waa = length rsl /\ (0 < length rsl -> get n_nan waa 0 = n_ofZ 0) /\
  forall i, 1 <= i < length rsl -> sch_ok rsl baseline wet m dt tau waa i.
Proof.
  intros L1 L2 E.
  assert (Ht : n_eqb tau (n_ofZ 0) = true -> forall i, 1 <= i < length rsl -> ~ flag_is_one wet i).
  { intros Ht j Hj Hw. rewrite (schleiss_zero_div rsl baseline wet m dt tau) in E; eauto. discriminate. }
  destruct (schleiss_loop rsl baseline wet m dt tau L1 L2 Ht) as (waa' & E' & A & B & C).
  rewrite E in E'. injection E' as <-. auto.
Qed.

Lemma schleiss_forgets (rsl1 bl1 wet1 rsl2 bl2 wet2 : list O) m dt tau waa1 waa2 i1 i2 K :
  length bl1 = length rsl1 -> length wet1 = length rsl1 -> length bl2 = length rsl2 -> length wet2 = length rsl2 ->
  waa_schleiss_2013 rsl1 bl1 wet1 m dt tau = Ok waa1 -> waa_schleiss_2013 rsl2 bl2 wet2 m dt tau = Ok waa2 ->
  1 <= i1 -> 1 <= i2 -> i1 + K < length rsl1 -> i2 + K < length rsl2 ->
  (forall k, k <= K -> get n_nan rsl1 (i1 + k) = get n_nan rsl2 (i2 + k) /\ get n_nan bl1 (i1 + k) = get n_nan bl2 (i2 + k) /\
                       get n_nan wet1 (i1 + k) = get n_nan wet2 (i2 + k)) ->
  ~ flag_is_one wet1 i1 ->
  forall k, k <= K -> get n_nan waa1 (i1 + k) = get n_nan waa2 (i2 + k).
Proof.
  intros A1 A2 B1 B2 E1 E2 I1 I2 K1 K2 H D.
  destruct (schleiss_ok _ _ _ _ _ _ _ A1 A2 E1) as (_ & _ & S1). destruct (schleiss_ok _ _ _ _ _ _ _ B1 B2 E2) as (_ & _ & S2).
  induction k as [|k IH]; intros Hk; destruct (H _ Hk) as (Q1 & Q2 & Q3).
  - rewrite !Nat.add_0_r in *. rewrite (S1 i1), (S2 i2) by lia. cbv zeta. unfold atten. rewrite Q1, Q2, <- Q3.
    unfold flag_is_one in D. apply not_true_is_false in D. rewrite D. reflexivity.
  - rewrite (S1 (i1 + S k)), (S2 (i2 + S k)) by lia. cbv zeta. unfold atten. rewrite Q1, Q2, Q3.
    replace (i1 + S k - 1) with (i1 + k) by lia. replace (i2 + S k - 1) with (i2 + k) by lia. rewrite IH by lia. reflexivity.
Qed.

Lemma constant_restart (trsl wet b : list O) n t :
  length wet = length trsl -> (forall j, t <= j < t + n -> j < length trsl -> ~ flagged_wet wet j) ->
  baseline_constant trsl wet n = Ok b -> baseline_constant (skipn t trsl) (skipn t wet) n = Ok (skipn t b).
Proof.
  intros HW D E. destruct (baseline_constant_ok _ _ _ _ E) as (Hn & _ & _).
  destruct (constant_rec _ _ _ _ E) as [L R]. destruct (constant_dry _ _ _ _ E) as [_ Dry].
  destruct (constant_exists (skipn t trsl) (skipn t wet) n Hn) as [b' E']; [rewrite !skipn_length; lia|].
  rewrite E'. f_equal. destruct (constant_rec _ _ _ _ E') as [L' R']. rewrite skipn_length in L', R'.
  apply get_ext with (d := n_nan); [rewrite skipn_length; lia|]. rewrite L'. intros i.
  induction i as [i IH] using lt_wf_ind. intros Hi. rewrite get_skipn.
  destruct (R (t + i) ltac:(lia)) as [_ A2]. destruct (R' i Hi) as [B1 B2]. unfold nget in *.
  destruct (le_lt_dec n i) as [Ge|Lt].
  - rewrite A2, B2 by lia. rewrite <- skipn_map, !get_skipn. replace (t + (i - 1)) with (t + i - 1) by lia.
    destruct (get false (map n_truthy wet) (t + i)); auto. destruct (get false (map n_truthy wet) (t + i - 1)).
    + rewrite IH by lia. rewrite get_skipn. f_equal. lia.
    + f_equal. apply get_ext with (d := n_nan); [rewrite !slice_length by lia; lia|].
      intros j Hj. rewrite slice_length in Hj by lia. rewrite !get_slice by lia. rewrite IH by lia. rewrite get_skipn. f_equal. lia.
  - rewrite B1 by auto. rewrite get_skipn. symmetry. apply Dry; [lia|]. right. apply D; lia.
Qed.

Variable S : numsem O.
Hypothesis sub_self : forall x : O, finite x -> n_sub x x = n_ofZ 0.
Hypothesis nan_eq : forall x : O, n_isnan x = true -> x = n_nan.
Hypothesis nan_op : forall x y : O, n_isnan x = true \/ n_isnan y = true ->
  n_isnan (n_add x y) = true /\ n_isnan (n_sub x y) = true /\ n_isnan (n_div x y) = true.

Lemma dry_not_one (wet : list O) i : ~ flagged_wet wet i -> ~ flag_is_one wet i.
Proof.
  unfold flagged_wet, flag_is_one. intros H. apply not_false_is_true in H. intros Q.
  rewrite (val_eqb _ S) in H, Q. rewrite (val_0 S) in H. rewrite (val_ofZ _ S) in Q by (simpl; discriminate).
  apply xeqb_true in H as [H _]. rewrite H in Q. simpl in Q. rewrite Req_bool_false in Q by lra. discriminate.
Qed.

Variable L : libm O.
Variable cubic : list O -> list O -> O -> O.

Lemma chain_restart c (trsl wet : list O) n m dt tau (k : kr_args O) R t :
  plain_coefficients k -> not_negative m -> length wet = length trsl ->
  t < length trsl -> (forall j, t <= j < t + n -> j < length trsl -> ~ flagged_wet wet j) -> n_isinf (get n_nan trsl t) = false ->
  chain L cubic c trsl wet n m dt tau k = Ok R ->
  chain L cubic c (skipn t trsl) (skipn t wet) n m dt tau k = Ok (skipn t R).
Proof.
  intros (a & b & E1 & E2 & E3 & E4 & H1 & H2 & Hb & He) Hm HW Ht D F ER.
  destruct (Nat.eq_dec t 0) as [->|NZ]; [exact ER|].
  assert (Hn : 1 <= n).
  { unfold chain in ER. destruct (baseline_constant trsl wet n) eqn:EB; [|discriminate]. apply baseline_constant_ok in EB. tauto. }
  assert (Htau : n_eqb tau (n_ofZ 0) = true -> forall i, 1 <= i < length trsl -> ~ flag_is_one wet i).
  { intros Z j Hj Hf1. unfold chain in ER. destruct (baseline_constant trsl wet n) as [bl|] eqn:EB; [|discriminate].
    destruct (constant_dry _ _ _ _ EB) as [LB _]. cbn [bind] in ER.
    rewrite (schleiss_zero_div trsl bl wet m dt tau LB HW Z) in ER by eauto. discriminate. }
  assert (HW' : length (skipn t wet) = length (skipn t trsl)) by (rewrite !skipn_length; lia).
  destruct (chain_run S L cubic c trsl wet n m dt tau k a b E1 E2 E3 E4 Hb Hn HW Htau) as (bl & w & R' & EB & LB & EW & LW & W0 & WS & ER' & LR & HR).
  rewrite ER in ER'. injection ER' as <-.
  destruct (chain_run S L cubic c (skipn t trsl) (skipn t wet) n m dt tau k a b E1 E2 E3 E4 Hb Hn HW')
    as (bl' & w' & R' & EB' & LB' & EW' & LW' & W0' & WS' & ER' & LR' & HR').
  { intros Z i Hi. rewrite skipn_length in Hi. unfold flag_is_one. rewrite get_skipn. apply (Htau Z). lia. }
  rewrite ER'. f_equal.
  pose proof (constant_restart _ _ _ _ t HW D EB) as EB2. rewrite EB' in EB2. injection EB2 as ->.
  rewrite skipn_length in *.
  destruct (constant_dry _ _ _ _ EB) as [_ Dry].
  assert (AT : forall i, atten (skipn t trsl) (skipn t bl) i = atten trsl bl (t + i)) by (intros; unfold atten; rewrite !get_skipn; auto).
  assert (NA : forall x y : O, n_isnan x = true \/ n_isnan y = true -> n_sub x y = n_nan) by (intros x y Q; apply nan_eq; apply nan_op; auto).
  assert (DT : ~ flagged_wet wet t) by (apply D; lia).
  pose proof (dry_not_one wet t DT) as N1. unfold flag_is_one in N1. apply not_true_is_false in N1.
  assert (BT : get n_nan bl t = get n_nan trsl t) by (apply Dry; [lia|auto]).
  assert (W1 : n_isnan (get n_nan trsl t) = false -> get n_nan w' 0 = get n_nan w t).
  { intros Nt. rewrite W0' by lia. rewrite (WS t) by lia. cbv zeta. rewrite N1. unfold atten. rewrite BT.
    rewrite sub_self by (split; auto). unfold py_min. unfold not_negative in Hm. rewrite Hm. reflexivity. }
  assert (WE : forall i, 1 <= i < length trsl - t -> get n_nan w' i = get n_nan w (t + i)).
  { induction i as [|i IH]; intros Hi; [lia|].
    rewrite (WS' (Datatypes.S i)), (WS (t + Datatypes.S i)) by lia. cbv zeta. rewrite AT, get_skipn.
    replace (Datatypes.S i - 1) with i by lia. replace (t + Datatypes.S i - 1) with (t + i) by lia.
    destruct (Nat.eq_dec i 0) as [->|NZi]; [|rewrite IH by lia; reflexivity].
    destruct (n_eqb (get n_nan wet (t + 1)) (n_ofZ 1)) eqn:W; auto.
    destruct (n_isnan (get n_nan trsl t)) eqn:Nt; [|rewrite W1, Nat.add_0_r by auto; reflexivity].
    (* the event starts with a missing baseline *)
    assert (FW : flagged_wet wet (t + 1)).
    { destruct (n_eqb (get n_nan wet (t + 1)) (n_ofZ 0)) eqn:Q; [|exact Q]. exfalso.
      apply (dry_not_one wet (t + 1)); [|exact W]. unfold flagged_wet. congruence. }
    assert (n = 1) as ->. { destruct (le_lt_dec n 1); [lia|]. exfalso. apply (D (t + 1)); auto; lia. }
    assert (BN : n_isnan (get n_nan bl (t + 1)) = true).
    { rewrite (constant_wet trsl wet 1 bl (t + 1) (t + 1) EB) by
        (first [lia | split; [lia|split; [replace (t + 1 - 1) with t by lia; auto|intros j Hj; replace j with (t + 1) by lia; auto]]]).
      replace (t + 1 - 1) with t by lia. unfold n_mean. apply nan_op. left.
      replace (slice t (t + 1) bl) with [get n_nan bl t].
      - unfold n_sum. cbn [fold_left]. apply nan_op. right. rewrite BT. exact Nt.
      - apply get_ext with (d := n_nan); [rewrite slice_length by lia; simpl; lia|].
        intros j Hj. simpl in Hj. assert (j = 0) as -> by lia. rewrite get_slice by lia. rewrite Nat.add_0_r. reflexivity. }
    assert (AN : n_isnan (atten trsl bl (t + 1)) = true) by (unfold atten; apply nan_op; auto).
    transitivity (n_nan : O); [|symmetry]; apply nan_eq; rewrite !(py_min_isnan S); exact AN. }
  apply get_ext with (d := n_nan); [rewrite skipn_length; lia|]. rewrite LR'. intros i Hi.
  rewrite HR' by lia. rewrite get_skipn, HR by lia. rewrite AT.
  destruct (Nat.eq_dec i 0) as [->|NZi]; [|rewrite WE by lia; reflexivity].
  destruct (n_isnan (get n_nan trsl t)) eqn:Nt; [|rewrite W1, Nat.add_0_r by auto; reflexivity].
  rewrite Nat.add_0_r. unfold atten. rewrite !(NA (get n_nan trsl t)) by auto. rewrite !NA by (left; apply (isnan_nan S)). reflexivity.
Qed.
End Any.

Lemma F64_sub_self (x : F64) : finite x -> n_sub x x = n_ofZ 0.
Proof.
  intros [N I]. change (f_sub x x = f_ofZ 0).
  assert (Fx : is_finite x = true) by (destruct x; try discriminate; auto).
  pose proof (Bminus_correct 53 1024 _ _ mode_NE x x Fx Fx) as C. rewrite Rminus_diag_eq in C by auto.
  rewrite round_0 in C by apply valid_rnd_N. rewrite Rabs_R0, Rlt_bool_true in C by apply bpow_gt_0.
  destruct C as (C1 & C2 & C3). rewrite Rcompare_Eq in C3 by auto.
  assert (Z : f_ofZ 0 = B754_zero false) by reflexivity. rewrite Z. unfold f_sub.
  apply B2R_Bsign_inj; auto. rewrite C3. destruct (Bsign x); reflexivity.
Qed.

Lemma F64_nan_eq (x : F64) : n_isnan x = true -> x = n_nan.
Proof. change (is_nan x = true -> x = B754_nan). destruct x; try discriminate; auto. Qed.

Lemma F64_nan_op (x y : F64) : n_isnan x = true \/ n_isnan y = true ->
  n_isnan (n_add x y) = true /\ n_isnan (n_sub x y) = true /\ n_isnan (n_div x y) = true.
Proof.
  intros [H|H]; apply F64_nan_eq in H; rewrite H; [repeat split|].
  change (is_nan (f_add x B754_nan) = true /\ is_nan (f_sub x B754_nan) = true /\ is_nan (f_div x B754_nan) = true).
  destruct x as [[]|[]| |[]]; repeat split.
Qed.
