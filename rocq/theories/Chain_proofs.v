From Coq Require Import List ZArith Bool String Lia Arith Reals Lra.
From Flocq Require Import Core.
From Verif Require Import Base Num NumF64 NumList Libm Libm64 RealSpec Baseline_model Baseline_spec Baseline_proofs Baseline_proofs2
  Schleiss_model Schleiss_spec Schleiss_proofs KR_model KR_spec KR_proofs Chain_model Chain_spec.
Import ListNotations.
Local Open Scope nat_scope.
Local Notation length := List.length.

Lemma XRm_pow_zero : pow_zero XRm.
Proof.
  intros x y Hx Hy. change (xeqb x (XFin 0) = true) in Hx. change (xltb (XFin 0) y = true) in Hy.
  change (xeqb (xpow x y) (XFin 0) = true). apply xeqb_true in Hx as [-> _].
  destruct y as [| |b|]; try discriminate.
  - apply xltb_fin in Hy. rewrite xpow_0 by auto. apply xeqb_true; auto.
  - simpl. unfold xpow. xcases; try lra; simpl; xcases; auto; try lra; rewrite ?Rabs_R0 in *; lra.
Qed.

Lemma F64cr_pow_zero : pow_zero F64cr.
Proof.
  intros x y Hx Hy. rewrite (val_eqb _ F64sem), (val_0 F64sem) in *. apply (val_positive F64sem) in Hy.
  change (xeqb (f_val (m_pow F64cr x y)) (XFin 0) = true). simpl m_pow. rewrite f_of_xr_val.
  pose proof (XRm_pow_zero (f_val x) (f_val y) Hx Hy) as P.
  change (xeqb (xpow (f_val x) (f_val y)) (XFin 0) = true) in P. apply xeqb_true in P as [-> _].
  change (f_rnd (XFin 0)) with (rnd F64sem (XFin 0)). rewrite (rnd_0 F64sem). apply xeqb_true; auto.
Qed.

Section Chain.
Context {O : numops} (S : numsem O) (L : libm O).
Variable cubic : list O -> list O -> O -> O.
Notation chain := (chain L cubic).
Notation chain_without_waa := (chain_without_waa L cubic).

Definition rt (a b : O) (k : kr_args O) := rate L (n_mul a (kr_len k)) (n_div one b) (kr_min k).
Definition cl (c : bool) (x : O) : O := if c then (if n_ltb x zero then zero else x) else x.

Lemma rain_rate_eq A k a b :
  kr_f k = None -> kr_pol k = None -> kr_a k = Some (CScalar a) -> kr_b k = Some (CScalar b) -> positive b ->
  rain_rate L cubic A k = Ok (map (rt a b k) A).
Proof. intros E1 E2 E3 E4 Hb. unfold rain_rate. rewrite E1, E2, E3, E4. apply (calc_scalar S); auto. Qed.

Lemma chain_frequency c trsl wet n m dt tau (k : kr_args O) f pol :
  plain_coefficients k -> frequency_of cubic k f pol ->
  chain c trsl wet n m dt tau (by_frequency k f pol) = chain c trsl wet n m dt tau k.
Proof.
  intros (a & b & E1 & E2 & E3 & E4 & _ & _ & Hb & _) (a' & b' & E5 & E6 & E7).
  rewrite E3 in E5; injection E5 as <-. rewrite E4 in E6; injection E6 as <-.
  unfold Chain_model.chain. destruct (baseline_constant trsl wet n); simpl; auto.
  destruct (waa_schleiss_2013 _ _ _ _ _ _); simpl; auto.
  unfold rain_rate. rewrite E1, E2, E3, E4. simpl kr_len. simpl kr_f. simpl kr_pol. simpl kr_a. simpl kr_b. simpl kr_approx. simpl kr_min.
  apply (calc_single_freq S); auto.
Qed.

Lemma if_clip c (A : list O) : (if c : bool then clip A else A) = map (cl c) A.
Proof. destruct c; auto. unfold cl. symmetry. apply map_id. Qed.

(** everything about one run at once *)
Lemma chain_run c trsl wet n m dt tau (k : kr_args O) a b :
  kr_f k = None -> kr_pol k = None -> kr_a k = Some (CScalar a) -> kr_b k = Some (CScalar b) -> positive b ->
  1 <= n -> length wet = length trsl ->
  (n_eqb tau (n_ofZ 0) = true -> forall i, 1 <= i < length trsl -> ~ flag_is_one wet i) ->
  exists bl w R, baseline_constant trsl wet n = Ok bl /\ length bl = length trsl /\
    waa_schleiss_2013 trsl bl wet m dt tau = Ok w /\ length w = length trsl /\
    (0 < length trsl -> get n_nan w 0 = n_ofZ 0) /\
    (forall i, 1 <= i < length trsl -> sch_ok trsl bl wet m dt tau w i) /\
    chain c trsl wet n m dt tau k = Ok R /\ length R = length trsl /\
    forall i, i < length trsl -> get n_nan R i = rt a b k (cl c (n_sub (atten trsl bl i) (get n_nan w i))).
Proof.
  intros E1 E2 E3 E4 Hb Hn Hw Ht.
  destruct (constant_exists trsl wet n Hn Hw) as [bl EB].
  destruct (constant_dry _ _ _ _ EB) as [LB _].
  destruct (schleiss_loop trsl bl wet m dt tau LB Hw Ht) as (w & EW & LW & W0 & WS).
  exists bl, w, (map (rt a b k) (map (cl c) (attenuation_of trsl bl w))).
  assert (LA : length (map2 n_sub trsl bl) = length trsl) by (rewrite map2_length; lia).
  assert (LA2 : length (attenuation_of trsl bl w) = length trsl) by (unfold attenuation_of; rewrite map2_length; lia).
  repeat (split; auto).
  - unfold Chain_model.chain. rewrite EB. simpl. rewrite EW. simpl. rewrite if_clip. apply rain_rate_eq; auto.
  - rewrite !map_length. auto.
  - intros i Hi. rewrite !get_map with (d := n_nan) by (rewrite ?map_length; lia).
    unfold attenuation_of, atten. rewrite !get_map2 with (da := n_nan) (db := n_nan) by lia. reflexivity.
Qed.

Lemma chain_no_waa_run c trsl wet n (k : kr_args O) a b :
  kr_f k = None -> kr_pol k = None -> kr_a k = Some (CScalar a) -> kr_b k = Some (CScalar b) -> positive b ->
  1 <= n -> length wet = length trsl ->
  exists bl R, baseline_constant trsl wet n = Ok bl /\
    chain_without_waa c trsl wet n k = Ok R /\ length R = length trsl /\
    forall i, i < length trsl -> get n_nan R i = rt a b k (cl c (atten trsl bl i)).
Proof.
  intros E1 E2 E3 E4 Hb Hn Hw.
  destruct (constant_exists trsl wet n Hn Hw) as [bl EB].
  destruct (constant_dry _ _ _ _ EB) as [LB _].
  exists bl, (map (rt a b k) (map (cl c) (map2 n_sub trsl bl))).
  assert (LA : length (map2 n_sub trsl bl) = length trsl) by (rewrite map2_length; lia).
  repeat (split; auto).
  - unfold Chain_model.chain_without_waa. rewrite EB. simpl. rewrite if_clip. apply rain_rate_eq; auto.
  - rewrite !map_length. auto.
  - intros i Hi. rewrite !get_map with (d := n_nan) by (rewrite ?map_length; lia).
    unfold atten. rewrite !get_map2 with (da := n_nan) (db := n_nan) by lia. reflexivity.
Qed.

(** ** values *)
Lemma zero_ok : n_isnan (zero : O) = false.
Proof. apply (isnan_ofZ S); simpl; discriminate. Qed.

Lemma cl_isnan c x : n_isnan (cl c x) = n_isnan x.
Proof.
  unfold cl. destruct c; auto. destruct (n_ltb x zero) eqn:E; auto.
  rewrite zero_ok. symmetry. apply (ltb_nan S) in E. tauto.
Qed.

Lemma cl_mono c x y : n_leb x y = true -> n_leb (cl c x) (cl c y) = true.
Proof.
  intros H. destruct c; auto. unfold cl. destruct (leb_nan S _ _ H) as [Nx Ny].
  destruct (n_ltb x zero) eqn:E, (n_ltb y zero) eqn:E2; auto.
  - apply (leb_refl S). apply zero_ok.
  - apply (ltb_false_leb S); auto. apply zero_ok.
  - exfalso. rewrite (val_ltb _ S) in E, E2. rewrite (val_leb _ S) in H.
    pose proof (xleb_ltb_trans _ _ _ H E2). congruence.
Qed.

Lemma rt_range (sane : pow_sane L) a b k x : positive (n_mul a (kr_len k)) -> finite (n_mul a (kr_len k)) -> positive b ->
  (missing (rt a b k x) <-> missing x) /\ (~ missing x -> nonneg (rt a b k x)).
Proof.
  intros H1 H2 H3. assert (He : nonneg (n_div one b)) by (apply (inv_nonneg S); auto).
  split; [apply (rate_nan_iff S L sane); auto|].
  unfold missing. intros Hm. apply not_true_is_false in Hm. apply (rate_range S L sane); auto.
Qed.

Lemma eqb0_val (x : O) : n_eqb x (n_ofZ 0) = true <-> val S x = XFin 0.
Proof.
  rewrite (val_eqb _ S), (val_0 S), xeqb_true. split; [tauto|]. intros ->; auto.
Qed.

(** zero attenuation gives zero rain *)
Lemma rt_zero (pz : pow_zero L) a b k x : positive (n_mul a (kr_len k)) -> finite (n_mul a (kr_len k)) ->
  positive (n_div (n_ofZ 1) b) -> n_eqb x (n_ofZ 0) = true -> n_eqb (rt a b k x) (n_ofZ 0) = true.
Proof.
  intros H1 H2 H3 Hx. pose proof (proj1 (eqb0_val x) Hx) as V. unfold rt, rate.
  assert (N : n_isnan x = false) by (rewrite (val_isnan _ S), V; auto).
  assert (Lx : n_leb zero x = true) by (unfold zero; rewrite (val_leb _ S), V, (val_0 S); apply xleb_fin; lra).
  rewrite N, Lx. cbv zeta. destruct (n_ltb _ (kr_min k)); [apply (eqb_0_0 S)|].
  apply pz; auto. apply eqb0_val. apply (finite_val S) in H2 as (r & E).
  apply (val_positive S) in H1. rewrite E in H1. apply xltb_fin in H1.
  rewrite (val_div _ S) by (rewrite E; intros Q; injection Q; lra).
  rewrite E, V. simpl. rewrite Req_bool_false by lra.
  replace (0 / r)%R with 0%R by (unfold Rdiv; ring). apply (rnd_0 S).
Qed.

(** negative attenuation gives zero rain *)
Lemma rt_neg a b k x : n_ltb x zero = true -> rt a b k x = zero.
Proof.
  intros H. unfold rt, rate. destruct (ltb_nan S _ _ H) as [-> _]. cbv zeta.
  assert (n_leb zero x = false) as ->.
  { destruct (n_leb zero x) eqn:E; auto. rewrite (leb_ltb_false S _ _ E) in H. discriminate. }
  destruct (n_ltb zero (kr_min k)); auto.
Qed.

Lemma sub_self (x : O) : finite x -> val S (n_sub x x) = XFin 0.
Proof.
  intros H. apply (finite_val S) in H as (r & E). rewrite (val_sub _ S), E. simpl.
  replace (r - r)%R with 0%R by ring. try (replace (r + - r)%R with 0%R by ring). apply (rnd_0 S).
Qed.

(** ** theorems *)
Lemma chain_total (sane : pow_sane L) c trsl wet n m dt tau (k : kr_args O) :
  plain_coefficients k -> 1 <= n -> length wet = length trsl ->
  (n_eqb tau (n_ofZ 0) = true -> forall i, 1 <= i < length trsl -> ~ flag_is_one wet i) ->
  exists R, chain c trsl wet n m dt tau k = Ok R /\ length R = length trsl /\
    forall i, i < length trsl ->
      (missing (get n_nan trsl i) -> missing (get n_nan R i)) /\
      (missing (get n_nan R i) \/ nonneg (get n_nan R i)).
Proof.
  intros (a & b & E1 & E2 & E3 & E4 & H1 & H2 & Hb & _) Hn Hw Ht.
  destruct (chain_run c trsl wet n m dt tau k a b E1 E2 E3 E4 Hb Hn Hw Ht) as (bl & w & R & _ & _ & _ & _ & _ & _ & ER & LR & HR).
  exists R. split; auto. split; auto. intros i Hi. rewrite (HR i Hi).
  destruct (rt_range sane a b k (cl c (n_sub (atten trsl bl i) (get n_nan w i))) H1 H2 Hb) as [RN RP].
  split.
  - intros Hm. apply RN. unfold missing. rewrite cl_isnan. apply (sub_nan_l S). unfold atten. apply (sub_nan_l S). exact Hm.
  - destruct (n_isnan (cl c (n_sub (atten trsl bl i) (get n_nan w i)))) eqn:E.
    + left. apply RN. exact E.
    + right. apply RP. unfold missing. congruence.
Qed.

Lemma chain_dry_zero (pz : pow_zero L) c trsl wet n m dt tau (k : kr_args O) R i :
  plain_coefficients k -> nonneg m ->
  length wet = length trsl -> chain c trsl wet n m dt tau k = Ok R -> i < length trsl ->
  ~ flagged_wet wet i -> finite (get n_nan trsl i) ->
  n_eqb (get n_nan R i) (n_ofZ 0) = true.
Proof.
  intros (a & b & E1 & E2 & E3 & E4 & H1 & H2 & Hb & He) Hm Hw ER Hi Hd Hf.
  assert (Hn : 1 <= n).
  { unfold Chain_model.chain in ER. destruct (baseline_constant trsl wet n) eqn:EB; [|discriminate].
    apply baseline_constant_ok in EB. tauto. }
  assert (Ht : n_eqb tau (n_ofZ 0) = true -> forall i, 1 <= i < length trsl -> ~ flag_is_one wet i).
  { intros Z j Hj Hf1. unfold Chain_model.chain in ER. destruct (baseline_constant trsl wet n) as [bl|] eqn:EB; [|discriminate].
    destruct (constant_dry _ _ _ _ EB) as [LB _]. simpl in ER.
    rewrite (schleiss_zero_div trsl bl wet m dt tau LB Hw Z) in ER by eauto. discriminate. }
  destruct (chain_run c trsl wet n m dt tau k a b E1 E2 E3 E4 Hb Hn Hw Ht) as (bl & w & R' & EB & LB & EW & LW & W0 & WS & ER' & LR & HR).
  rewrite ER in ER'; injection ER' as <-. rewrite (HR i Hi).
  destruct (constant_dry _ _ _ _ EB) as [_ D].
  assert (VA : val S (atten trsl bl i) = XFin 0).
  { unfold atten. rewrite (D i Hi) by auto. apply sub_self; auto. }
  assert (VW : val S (get n_nan w i) = XFin 0).
  { destruct (Nat.eq_dec i 0) as [->|NE]; [rewrite W0 by lia; apply (val_0 S)|].
    assert (1 <= i < length trsl) as Hi' by lia. specialize (WS i Hi'). unfold sch_ok in WS. cbv zeta in WS.
    assert (n_eqb (get n_nan wet i) (n_ofZ 1) = false) as F1.
    { unfold flagged_wet in Hd. apply not_false_is_true in Hd. apply eqb0_val in Hd.
      rewrite (val_eqb _ S), Hd, (val_ofZ _ S) by (simpl; discriminate). simpl. apply Req_bool_false. lra. }
    rewrite F1 in WS. rewrite WS. unfold py_min.
    assert (n_ltb m (atten trsl bl i) = false) as ->; auto.
    rewrite (val_ltb _ S), VA. apply (val_nonneg S) in Hm.
    destruct (val S m); simpl in *; auto; try discriminate. revert Hm; xcases; auto; try lra; discriminate. }
  apply rt_zero; auto. apply eqb0_val.
  assert (VD : val S (n_sub (atten trsl bl i) (get n_nan w i)) = XFin 0).
  { rewrite (val_sub _ S), VA, VW. simpl. try replace (0 - 0)%R with 0%R by ring. try replace (0 + - 0)%R with 0%R by ring. apply (rnd_0 S). }
  unfold cl. destruct c; auto. destruct (n_ltb _ zero); auto. apply (val_0 S).
Qed.

(** line 865 never changes anything: the wet antenna attenuation is at most
    the attenuation *)
Lemma sub_not_neg (x y : O) : (n_isnan x = false -> n_leb y x = true) -> n_ltb (n_sub x y) zero = false.
Proof.
  intros H. destruct (n_isnan x) eqn:Nx.
  - destruct (n_ltb (n_sub x y) zero) eqn:E; auto. apply (ltb_nan S) in E as [E _].
    rewrite (sub_nan_l S) in E by auto. discriminate.
  - specialize (H eq_refl). unfold zero. rewrite (val_ltb _ S), (val_0 S), (val_sub _ S).
    rewrite (val_leb _ S) in H. rewrite (val_isnan _ S) in Nx.
    assert (xsub (val S x) (val S y) = XNaN \/ xleb (XFin 0) (xsub (val S x) (val S y)) = true) as [E|E].
    { destruct (val S x) as [| |a|], (val S y) as [| |b|]; simpl in *; try discriminate; auto.
      apply (xleb_fin b a) in H. right. apply (xleb_fin 0 (a + - b)). lra. }
    + pose proof (rnd_nan _ S XNaN) as Q. rewrite E. destruct (rnd S XNaN); simpl in Q; try discriminate. reflexivity.
    + apply (rnd_mono _ S) in E. rewrite (rnd_0 S) in E.
      destruct (xltb (rnd S (xsub (val S x) (val S y))) (XFin 0)) eqn:F; auto.
      pose proof (xleb_ltb_trans _ _ _ E F) as Q. apply xltb_fin in Q. lra.
Qed.

Lemma chain_clip_no_effect trsl wet n m dt tau (k : kr_args O) :
  length wet = length trsl -> chain true trsl wet n m dt tau k = chain false trsl wet n m dt tau k.
Proof.
  intros Hw. unfold Chain_model.chain.
  destruct (baseline_constant trsl wet n) as [bl|] eqn:EB; auto. simpl.
  destruct (waa_schleiss_2013 trsl bl wet m dt tau) as [w|] eqn:EW; auto. simpl. f_equal.
  destruct (constant_dry _ _ _ _ EB) as [LB D]. pose proof (baseline_constant_ok _ _ _ _ EB) as (Hn & _ & _).
  assert (Ht : n_eqb tau (n_ofZ 0) = true -> forall i, 1 <= i < length trsl -> ~ flag_is_one wet i).
  { intros Z j Hj Hf1. rewrite (schleiss_zero_div trsl bl wet m dt tau LB Hw Z) in EW by eauto. discriminate. }
  destruct (schleiss_loop trsl bl wet m dt tau LB Hw Ht) as (w' & EW' & LW & W0 & WS).
  rewrite EW in EW'; injection EW' as <-.
  unfold clip. rewrite <- map_id. apply map_ext_in. intros x Hx.
  apply In_get with (d := n_nan) in Hx as (i & Hi & <-).
  assert (LA : length (map2 n_sub trsl bl) = length trsl) by (rewrite map2_length; lia).
  unfold attenuation_of in *. rewrite map2_length in Hi by lia.
  rewrite !get_map2 with (da := n_nan) (db := n_nan) by lia.
  rewrite sub_not_neg; auto. intros N. destruct (Nat.eq_dec i 0) as [->|NZ].
  - rewrite W0 by lia. rewrite D in * by (auto; lia).
    apply (ltb_false_leb S); auto; [apply (isnan_ofZ S); simpl; discriminate|].
    apply sub_not_neg. intros N2. apply (leb_refl S); auto.
  - assert (1 <= i < length trsl) as Hi' by lia. specialize (WS i Hi'). unfold sch_ok in WS. cbv zeta in WS.
    rewrite WS. unfold atten. destruct (n_eqb (get n_nan wet i) (n_ofZ 1)).
    + eapply (leb_trans S); apply (py_min_le_l S); rewrite ?(py_min_isnan S); auto.
    + apply (py_min_le_l S); auto.
Qed.

(** without wet antenna correction the step is not needed either *)
Lemma chain_clip_not_needed (pz : pow_zero L) trsl wet n (k : kr_args O) :
  plain_coefficients k -> 1 <= n -> length wet = length trsl ->
  exists R R', chain_without_waa true trsl wet n k = Ok R /\ chain_without_waa false trsl wet n k = Ok R' /\ length R = length R' /\
    forall i, i < length R -> get n_nan R i = get n_nan R' i \/
      (n_eqb (get n_nan R i) (n_ofZ 0) = true /\ n_eqb (get n_nan R' i) (n_ofZ 0) = true).
Proof.
  intros (a & b & E1 & E2 & E3 & E4 & H1 & H2 & Hb & He) Hn Hw.
  destruct (chain_no_waa_run true trsl wet n k a b E1 E2 E3 E4 Hb Hn Hw) as (bl & R & EB & ER & LR & HR).
  destruct (chain_no_waa_run false trsl wet n k a b E1 E2 E3 E4 Hb Hn Hw) as (bl' & R' & EB' & ER' & LR' & HR').
  rewrite EB in EB'; injection EB' as <-.
  exists R, R'. repeat (split; auto; try congruence). intros i Hi. rewrite LR in Hi. rewrite HR, HR' by auto. unfold cl.
  destruct (n_ltb (atten trsl bl i) zero) eqn:E; auto.
  right. split.
  - apply rt_zero; auto. apply (eqb_0_0 S).
  - rewrite rt_neg by auto. apply (eqb_0_0 S).
Qed.

(** ** causality *)
Lemma chain_causal c trsl1 wet1 trsl2 wet2 n m dt tau (k : kr_args O) R1 R2 t :
  plain_coefficients k ->
  chain c trsl1 wet1 n m dt tau k = Ok R1 -> chain c trsl2 wet2 n m dt tau k = Ok R2 ->
  length wet1 = length trsl1 -> length wet2 = length trsl2 ->
  t < length trsl1 -> t < length trsl2 ->
  same_until n_nan t trsl1 trsl2 -> same_until n_nan t wet1 wet2 ->
  same_until n_nan t R1 R2.
Proof.
  intros (a & b & E1 & E2 & E3 & E4 & H1 & H2 & Hb & He) ER1 ER2 Hw1 Hw2 K1 K2 HT HW.
  assert (Hn : 1 <= n).
  { unfold Chain_model.chain in ER1. destruct (baseline_constant trsl1 wet1 n) eqn:EB; [|discriminate].
    apply baseline_constant_ok in EB. tauto. }
  assert (Ht : forall trsl wet R, length wet = length trsl -> chain c trsl wet n m dt tau k = Ok R ->
    n_eqb tau (n_ofZ 0) = true -> forall i, 1 <= i < length trsl -> ~ flag_is_one wet i).
  { intros trsl wet R Hw ER Z j Hj Hf1. unfold Chain_model.chain in ER. destruct (baseline_constant trsl wet n) as [bl|] eqn:EB; [|discriminate].
    destruct (constant_dry _ _ _ _ EB) as [LB _]. simpl in ER.
    rewrite (schleiss_zero_div trsl bl wet m dt tau LB Hw Z) in ER by eauto. discriminate. }
  destruct (chain_run c trsl1 wet1 n m dt tau k a b E1 E2 E3 E4 Hb Hn Hw1 (Ht _ _ _ Hw1 ER1)) as (bl1 & w1 & R1' & EB1 & LB1 & EW1 & LW1 & W01 & WS1 & ER1' & LR1 & HR1).
  destruct (chain_run c trsl2 wet2 n m dt tau k a b E1 E2 E3 E4 Hb Hn Hw2 (Ht _ _ _ Hw2 ER2)) as (bl2 & w2 & R2' & EB2 & LB2 & EW2 & LW2 & W02 & WS2 & ER2' & LR2 & HR2).
  rewrite ER1 in ER1'; injection ER1' as <-. rewrite ER2 in ER2'; injection ER2' as <-.
  assert (HB : forall j, j <= t -> get n_nan bl1 j = get n_nan bl2 j).
  { intros j Hj. apply (constant_causal trsl1 wet1 trsl2 wet2 n bl1 bl2 j); auto; try lia; intros; [apply HT|apply HW]; lia. }
  assert (HA : forall j, j <= t -> atten trsl1 bl1 j = atten trsl2 bl2 j).
  { intros j Hj. unfold atten. rewrite HT, HB by lia. auto. }
  assert (HWA : forall j, j <= t -> get n_nan w1 j = get n_nan w2 j).
  { induction j as [|j IH]; intros Hj; [rewrite W01, W02 by lia; auto|].
    rewrite (WS1 (Datatypes.S j)), (WS2 (Datatypes.S j)) by lia. cbv zeta.
    rewrite HA, HW by lia. replace (Datatypes.S j - 1) with j by lia. rewrite IH by lia. auto. }
  intros j Hj. rewrite HR1, HR2 by lia. rewrite HA, HWA by lia. auto.
Qed.

(** ** the correction with non-negative attenuation *)
Definition nn (v : xr) : Prop := v = XNaN \/ xleb (XFin 0) v = true.
Lemma nn_rnd v : nn v -> nn (rnd S v).
Proof.
  intros [->|H].
  - left. pose proof (rnd_nan _ S XNaN) as Q. simpl in Q. destruct (rnd S XNaN); auto; discriminate.
  - right. rewrite <- (rnd_0 S). apply rnd_mono; auto.
Qed.
Lemma nn_mul v w : nn v -> nn w -> nn (xmul v w).
Proof.
  intros [->|Hv] [->|Hw]; try (left; reflexivity); try (left; destruct v; reflexivity).
  destruct v as [| |a|], w as [| |b|]; simpl in Hv, Hw; try discriminate; unfold xmul;
    try (right; reflexivity).
  - right. apply (xleb_fin 0 a) in Hv. apply (xleb_fin 0 b) in Hw. apply xleb_fin. apply Rmult_le_pos; auto.
  - apply (xleb_fin 0 a) in Hv. unfold nn. simpl. destruct (Rcompare_spec a 0); simpl; auto; lra.
  - apply (xleb_fin 0 b) in Hw. unfold nn. simpl. destruct (Rcompare_spec b 0); simpl; auto; lra.
Qed.
Lemma nn_add v w : nn v -> nn w -> nn (xadd v w).
Proof.
  intros [->|Hv] [->|Hw]; try (left; reflexivity); try (left; destruct v; reflexivity).
  destruct v as [| |a|], w as [| |b|]; simpl in Hv, Hw; try discriminate; unfold nn; simpl; auto.
  right. apply (xleb_fin 0 a) in Hv. apply (xleb_fin 0 b) in Hw. apply xleb_fin. lra.
Qed.
Lemma nn_div v r : nn v -> (0 < r)%R -> nn (xdiv v (XFin r)).
Proof.
  intros [->|Hv] Hr; [left; simpl; auto|right]. apply xdiv_nonneg; auto.
Qed.

Definition waa_inv (m A w : O) : Prop :=
  nn (val S w) /\ (n_isnan w = false -> n_leb w m = true) /\ (n_isnan w = n_isnan A) /\ (n_isnan w = false -> n_leb w A = true).

Lemma not_negative_nn (x : O) : not_negative x <-> nn (val S x).
Proof.
  unfold not_negative, nn. rewrite (val_ltb _ S), (val_0 S).
  destruct (val S x) as [| |r|]; simpl; split; intros H; auto; try discriminate; try (destruct H; discriminate).
  - right. revert H. xcases; auto; lra.
  - destruct H as [H|H]; [discriminate|]. revert H. xcases; auto; lra.
Qed.

Lemma relaxed_nn (m dt tau prev : O) : nonneg m -> finite m -> nonneg dt -> positive tau -> finite tau ->
  nn (val S prev) -> (n_isnan prev = false -> n_leb prev m = true) ->
  nn (val S (relaxed prev m dt tau)).
Proof.
  intros Hm Fm Hdt Ht Ft Hp Hpm. apply (finite_val S) in Ft as (r & E). apply (val_positive S) in Ht.
  rewrite E in Ht. apply xltb_fin in Ht. apply (val_nonneg S) in Hm. apply (val_nonneg S) in Hdt.
  apply (finite_val S) in Fm as (rm & Em).
  unfold relaxed. rewrite (val_add _ S). apply nn_rnd. apply nn_add; auto.
  rewrite (val_div _ S) by (rewrite E; intros Q; injection Q; lra). apply nn_rnd. rewrite E. apply nn_div; auto.
  rewrite (val_mul _ S). apply nn_rnd. apply nn_mul; [|right; auto].
  rewrite (val_mul _ S). apply nn_rnd. apply nn_mul.
  - rewrite (val_sub _ S). apply nn_rnd. rewrite Em.
    rewrite (val_isnan _ S), (val_leb _ S), Em in Hpm.
    destruct (val S prev) as [| |p|]; simpl in *.
    + left; reflexivity.
    + destruct Hp; discriminate.
    + right. specialize (Hpm eq_refl). apply (xleb_fin p rm) in Hpm. apply xleb_fin. lra.
    + specialize (Hpm eq_refl). discriminate.
  - right. rewrite (val_ofZ _ S) by (simpl; discriminate). apply xleb_fin. lra.
Qed.

Lemma py_min_nn (x y : O) : nn (val S x) -> nn (val S y) -> nn (val S (py_min x y)).
Proof. unfold py_min. destruct (n_ltb y x); auto. Qed.

Lemma waa_bounds trsl bl wet m dt tau w : nonneg m -> finite m -> nonneg dt -> positive tau -> finite tau ->
  (forall i, 1 <= i < length trsl -> sch_ok trsl bl wet m dt tau w i) ->
  get n_nan w 0 = n_ofZ 0 ->
  forall i, i < length trsl -> (forall j, 1 <= j <= i -> not_negative (atten trsl bl j)) ->
  nn (val S (get n_nan w i)) /\ (n_isnan (get n_nan w i) = false -> n_leb (get n_nan w i) m = true) /\
  (1 <= i -> n_isnan (get n_nan w i) = n_isnan (atten trsl bl i)) /\
  (1 <= i -> n_isnan (get n_nan w i) = false -> n_leb (get n_nan w i) (atten trsl bl i) = true).
Proof.
  intros Hm Fm Hdt Ht Ft WS W0. induction i as [|i IH]; intros Hi HA.
  - rewrite W0. split; [right; rewrite (val_0 S); apply xleb_fin; lra|]. split; [auto|]. split; intros; lia.
  - destruct IH as (I1 & I2 & _); [lia|intros; apply HA; lia|].
    assert (A0 : nn (val S (atten trsl bl (Datatypes.S i)))) by (apply not_negative_nn, HA; lia).
    assert (M0 : nn (val S m)) by (right; apply (val_nonneg S); auto).
    assert (NM : n_isnan m = false) by (destruct Fm; auto).
    assert (R0 : nn (val S (relaxed (get n_nan w i) m dt tau))) by (apply relaxed_nn; auto).
    assert (1 <= Datatypes.S i < length trsl) as Hi' by lia. specialize (WS _ Hi'). unfold sch_ok in WS. cbv zeta in WS.
    replace (Datatypes.S i - 1) with i in WS by lia. set (A := atten trsl bl (Datatypes.S i)) in *.
    assert (P2 : n_isnan A = false -> n_leb (py_min A m) m = true) by (intros; apply (py_min_le_r S); auto).
    assert (P3 : n_isnan A = false -> n_leb (py_min A m) A = true) by (intros; apply (py_min_le_l S); auto).
    destruct (n_eqb (get n_nan wet (Datatypes.S i)) (n_ofZ 1)); rewrite WS.
    + assert (NE : n_isnan (py_min (py_min A m) (relaxed (get n_nan w i) m dt tau)) = n_isnan A) by (rewrite !(py_min_isnan S); auto).
      rewrite NE. split; [repeat apply py_min_nn; auto|]. split; [|split; auto].
      * intros N. eapply (leb_trans S); [apply (py_min_le_l S); rewrite (py_min_isnan S); auto|auto].
      * intros _ N. eapply (leb_trans S); [apply (py_min_le_l S); rewrite (py_min_isnan S); auto|auto].
    + rewrite (py_min_isnan S). split; [apply py_min_nn; auto|]. split; auto.
Qed.

Lemma sub_nonneg_le (x y : O) : n_isnan x = false -> nonneg y -> n_leb y x = true -> finite y ->
  n_leb (n_sub x y) x = true /\ nonneg (n_sub x y).
Proof.
  intros Nx Hy Hyx Fy. apply (finite_val S) in Fy as (r & E). rewrite (val_nonneg S) in *.
  rewrite (val_leb _ S), (val_sub _ S) in *. rewrite E in *. apply xleb_fin in Hy.
  rewrite (val_isnan _ S) in Nx.
  assert (xleb (xsub (val S x) (XFin r)) (val S x) = true /\ xleb (XFin 0) (xsub (val S x) (XFin r)) = true) as [A B].
  { destruct (val S x) as [| |a|]; simpl in *; try discriminate; auto.
    apply (xleb_fin r a) in Hyx. split; apply xleb_fin; lra. }
  split.
  - rewrite <- (rnd_val _ S x) at 2. apply rnd_mono; auto.
  - rewrite <- (rnd_0 S). apply rnd_mono; auto.
Qed.

Lemma chain_waa_lowers (sane : pow_sane L) (mono : pow_mono L) c trsl wet n m dt tau (k : kr_args O) bl R R' i :
  plain_coefficients k -> nonneg m -> finite m -> nonneg dt -> positive tau -> finite tau ->
  length wet = length trsl ->
  baseline_constant trsl wet n = Ok bl ->
  chain c trsl wet n m dt tau k = Ok R -> chain_without_waa c trsl wet n k = Ok R' ->
  i < length trsl -> (forall j, j <= i -> not_negative (atten trsl bl j)) ->
  (missing (get n_nan R i) <-> missing (get n_nan R' i)) /\
  (~ missing (get n_nan R' i) -> n_leb (get n_nan R i) (get n_nan R' i) = true).
Proof.
  intros (a & b & E1 & E2 & E3 & E4 & H1 & H2 & Hb & He) Hm Fm Hdt Ht Ft Hw EB ER ER' Hi HA.
  assert (Hn : 1 <= n) by (apply baseline_constant_ok in EB; tauto).
  assert (HZ : n_eqb tau (n_ofZ 0) = true -> forall i, 1 <= i < length trsl -> ~ flag_is_one wet i).
  { intros Z. apply eqb0_val in Z. apply (val_positive S) in Ht. rewrite Z in Ht. apply xltb_fin in Ht. lra. }
  destruct (chain_run c trsl wet n m dt tau k a b E1 E2 E3 E4 Hb Hn Hw HZ) as (bl1 & w & R1 & EB1 & LB & EW & LW & W0 & WS & ER1 & LR & HR).
  destruct (chain_no_waa_run c trsl wet n k a b E1 E2 E3 E4 Hb Hn Hw) as (bl2 & R2 & EB2 & ER2 & LR2 & HR2).
  rewrite EB in EB1, EB2; injection EB1 as <-; injection EB2 as <-.
  rewrite ER in ER1; injection ER1 as <-. rewrite ER' in ER2; injection ER2 as <-.
  rewrite HR, HR2 by auto.
  destruct (waa_bounds trsl bl wet m dt tau w Hm Fm Hdt Ht Ft WS (W0 ltac:(lia)) i Hi) as (B1 & B2 & B3 & B4);
    [intros; apply HA; lia|].
  set (x := atten trsl bl i) in *. set (y := get n_nan w i) in *.
  assert (NN : n_isnan x = false -> n_isnan (n_sub x y) = false /\ n_leb (n_sub x y) x = true).
  { intros Nx.
    assert (Ny : n_isnan y = false).
    { destruct (Nat.eq_dec i 0) as [Z|NZ]; [|rewrite B3 by lia; auto].
      unfold y. rewrite Z, W0 by lia. apply (isnan_ofZ S); simpl; discriminate. }
    assert (Hy : nonneg y).
    { destruct B1 as [B1|B1]; [|apply (val_nonneg S); auto]. rewrite (val_isnan _ S), B1 in Ny. discriminate. }
    assert (Fy : finite y).
    { apply (finite_val S). apply (finite_val S) in Fm as (rm & Em). specialize (B2 Ny).
      rewrite (val_leb _ S), Em in B2. apply (val_nonneg S) in Hy. destruct (val S y); try discriminate; eauto. }
    assert (Hyx : n_leb y x = true).
    { destruct (Nat.eq_dec i 0) as [Z|NZ]; [|apply B4; auto; lia].
      assert (not_negative x) as Q by (apply HA; lia). apply (ltb_false_leb S) in Q; auto.
      - unfold y. rewrite Z, W0 by lia. exact Q.
      - apply (isnan_ofZ S); simpl; discriminate. }
    destruct (sub_nonneg_le x y Nx Hy Hyx Fy) as [Q _]. split; auto. apply (leb_nan S) in Q. tauto. }
  assert (NE : n_isnan (n_sub x y) = n_isnan x).
  { destruct (n_isnan x) eqn:E; [apply (sub_nan_l S); auto|apply NN; auto]. }
  destruct (rt_range sane a b k (cl c (n_sub x y)) H1 H2 Hb) as [M1 _].
  destruct (rt_range sane a b k (cl c x) H1 H2 Hb) as [M2 _].
  split.
  - rewrite M1, M2. unfold missing. rewrite !cl_isnan, NE. reflexivity.
  - intros Hmiss. apply (rate_mono S L sane mono); auto.
    + apply (inv_nonneg S); auto.
    + apply cl_mono. apply NN. destruct (n_isnan x) eqn:E; auto. exfalso. apply Hmiss. apply M2. unfold missing. rewrite cl_isnan. auto.
Qed.
End Chain.

(** ** a signal above the baseline *)
Lemma chain_waa_raises :
  exists (trsl wet : list F64) n m dt tau k R R' i,
    plain_coefficients k /\ nonneg m /\ nonneg dt /\ positive tau /\ length wet = length trsl /\ i < length trsl /\
    chain F64demo (fun _ _ x => x) true trsl wet n m dt tau k = Ok R /\
    chain_without_waa F64demo (fun _ _ x => x) true trsl wet n k = Ok R' /\
    n_ltb (get n_nan R' i) (get n_nan R i) = true.
Proof.
  set (trsl := [#10; #2; #12] : list F64). set (wet := [#0; #1; #1] : list F64).
  set (k := mk_kr_args (#1 : F64) None None (Some (CScalar (#1 : F64))) (Some (CScalar (f_half : F64))) EmptyString (#0 : F64)).
  assert (H : match chain F64demo (fun _ _ x => x) true trsl wet 1 #2 #1 #6 k, chain_without_waa F64demo (fun _ _ x => x) true trsl wet 1 k with
    | Ok R, Ok R' => n_ltb (get n_nan R' 2) (get n_nan R 2) | _, _ => false end = true) by (vm_compute; reflexivity).
  destruct (chain F64demo (fun _ _ x => x) true trsl wet 1 #2 #1 #6 k) as [R|] eqn:E1; [|discriminate].
  destruct (chain_without_waa F64demo (fun _ _ x => x) true trsl wet 1 k) as [R'|] eqn:E2; [|discriminate].
  exists trsl, wet, 1, #2, #1, #6, k, R, R', 2.
  split; [exists #1, f_half; repeat split; vm_compute; reflexivity|].
  repeat split; auto.
Qed.

Lemma chain_rain_below :
  exists (trsl wet : list F64) n m dt tau k bl R i,
    plain_coefficients k /\ nonneg m /\ nonneg dt /\ positive tau /\ length wet = length trsl /\ i < length trsl /\
    baseline_constant trsl wet n = Ok bl /\
    chain F64demo (fun _ _ x => x) true trsl wet n m dt tau k = Ok R /\
    n_ltb (get n_nan trsl i) (get n_nan bl i) = true /\ positive (get n_nan R i).
Proof.
  set (trsl := [#10; #2; #7] : list F64). set (wet := [#0; #1; #1] : list F64).
  set (k := mk_kr_args (#1 : F64) None None (Some (CScalar (#1 : F64))) (Some (CScalar (f_half : F64))) EmptyString (#1 : F64)).
  assert (H : match baseline_constant trsl wet 1, chain F64demo (fun _ _ x => x) true trsl wet 1 #2 #1 #12 k with
    | Ok bl, Ok R => n_ltb (get n_nan trsl 2) (get n_nan bl 2) && n_ltb (n_ofZ 0) (get n_nan R 2) | _, _ => false end = true) by (vm_compute; reflexivity).
  destruct (baseline_constant trsl wet 1) as [bl|] eqn:E1; [|discriminate].
  destruct (chain F64demo (fun _ _ x => x) true trsl wet 1 #2 #1 #12 k) as [R|] eqn:E2; [|discriminate].
  apply andb_true_iff in H as [H1 H2].
  exists trsl, wet, 1, #2, #1, #12, k, bl, R, 2.
  split; [exists #1, f_half; repeat split; vm_compute; reflexivity|].
  repeat split; auto.
Qed.
