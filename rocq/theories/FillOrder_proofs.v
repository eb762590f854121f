From Coq Require Import List ZArith Bool Reals Lia Lra.
From Verif Require Import Base Num NumF64 NumList KR_spec Workflow_model Workflow_spec Workflow_proofs Workflow_proofs2 NearbyNb_model NearbyNb_spec NearbyNb_proofs FillOrder_model FillOrder_spec ShiftFloat_proofs.
Import ListNotations.
Local Open Scope nat_scope.
Local Notation length := List.length.

(** ** the rules for fill values *)
Section Rules.
Context {O : numops} (S : numsem O).
Hypothesis one_nan : forall v : O, n_isnan v = true -> v = n_nan.
Lemma eq_ltb_l (a b c : O) : n_eqb a b = true -> n_ltb a c = n_ltb b c.
Proof using S. rewrite (val_eqb _ S), !(val_ltb _ S). destruct (val S a), (val S b); cbn; try discriminate; auto. intros H. xcases. subst. reflexivity. Qed.
Lemma eq_ltb_r (a b c : O) : n_eqb a b = true -> n_ltb c a = n_ltb c b.
Proof using S. rewrite (val_eqb _ S), !(val_ltb _ S). destruct (val S a), (val S b); cbn; try discriminate; auto. intros H. xcases. subst. reflexivity. Qed.
Lemma below_rule (fill hi : O) l : n_ltb fill hi = false -> plausible fill (below hi) l -> where_not fill l = where_below hi l.
Proof using S one_nan.
  intros F H. apply map_ext_in. intros v V. destruct (H v V) as [M|[E|B]].
  - rewrite (one_nan v M). destruct (n_eqb n_nan fill), (n_ltb n_nan hi); reflexivity.
  - rewrite E. rewrite (eq_ltb_l v fill hi E), F. reflexivity.
  - unfold below in B. destruct (n_eqb v fill) eqn:E; [rewrite (eq_ltb_l v fill hi E) in B; congruence|]. rewrite B. reflexivity.
Qed.
Lemma above_rule (fill lo : O) l : n_ltb lo fill = false -> plausible fill (above lo) l -> where_not fill l = where_above lo l.
Proof using S one_nan.
  intros F H. apply map_ext_in. intros v V. destruct (H v V) as [M|[E|B]].
  - rewrite (one_nan v M). destruct (n_eqb n_nan fill), (n_ltb lo n_nan); reflexivity.
  - rewrite E. rewrite (eq_ltb_r v fill lo E), F. reflexivity.
  - unfold above in B. destruct (n_eqb v fill) eqn:E; [rewrite (eq_ltb_r v fill lo E) in B; congruence|]. rewrite B. reflexivity.
Qed.
Lemma rules_agree (ft fr hi lo : O) tsl rsl : n_ltb ft hi = false -> n_ltb lo fr = false -> plausible ft (below hi) tsl -> plausible fr (above lo) rsl ->
  total_loss ft fr tsl rsl = radar_loss hi lo tsl rsl.
Proof using S one_nan. intros F G H K. unfold total_loss, radar_loss. rewrite (below_rule ft hi), (above_rule fr lo) by auto. reflexivity. Qed.

Lemma rl_get (hi lo : O) tsl rsl t : length rsl = length tsl -> t < length tsl ->
  get n_nan (radar_loss hi lo tsl rsl) t = n_sub (if n_ltb (get n_nan tsl t) hi then get n_nan tsl t else n_nan) (if n_ltb lo (get n_nan rsl t) then get n_nan rsl t else n_nan).
Proof using.
  intros L H. unfold radar_loss. rewrite get_map2 with (da := n_nan) (db := n_nan) by (rewrite ?below_length, ?above_length; congruence).
  rewrite below_get, above_get by congruence. reflexivity.
Qed.
Lemma radar_subset (ft fr hi lo : O) tsl rsl t : n_ltb ft hi = false -> n_ltb lo fr = false -> length rsl = length tsl -> t < length tsl ->
  missing (get n_nan (radar_loss hi lo tsl rsl) t) \/ get n_nan (radar_loss hi lo tsl rsl) t = get n_nan (total_loss ft fr tsl rsl) t.
Proof using S.
  intros F G L H. rewrite rl_get, tl_get by auto. unfold missing.
  destruct (n_ltb (get n_nan tsl t) hi) eqn:A; [|left; apply (sub_nan_l S), (nan_nan S)].
  destruct (n_ltb lo (get n_nan rsl t)) eqn:B; [|left; apply (sub_nan2 S), (nan_nan S)]. right.
  destruct (n_eqb (get n_nan tsl t) ft) eqn:E; [rewrite (eq_ltb_l _ _ _ E) in A; congruence|].
  destruct (n_eqb (get n_nan rsl t) fr) eqn:E'; [rewrite (eq_ltb_r _ _ _ E') in B; congruence|]. reflexivity.
Qed.
Lemma rules_differ (ft fr hi lo : O) tsl rsl t : length rsl = length tsl -> t < length tsl ->
  finite (get n_nan tsl t) -> finite (get n_nan rsl t) -> n_eqb (get n_nan tsl t) ft = false -> n_eqb (get n_nan rsl t) fr = false ->
  n_ltb (get n_nan tsl t) hi = false \/ n_ltb lo (get n_nan rsl t) = false ->
  ~ missing (get n_nan (total_loss ft fr tsl rsl) t) /\ missing (get n_nan (radar_loss hi lo tsl rsl) t).
Proof using S.
  intros L H A B E F G. rewrite rl_get, tl_get by auto. rewrite E, F. unfold missing. split.
  - rewrite (sub_ok S) by auto. discriminate.
  - destruct G as [G|G]; rewrite G; [apply (sub_nan_l S), (nan_nan S)|apply (sub_nan2 S), (nan_nan S)].
Qed.
End Rules.

(** ** the order of gap filling and difference, exact arithmetic *)
Notation "l .[ i ]" := (get (n_nan : XR) l i) (at level 2, left associativity, format "l .[ i ]").
Definition lin (a b r0 r1 r : R) : R := (a + (b - a) * ((r - r0) / (r1 - r0)))%R.
Section Exact.
Variables (times : list Z) (mg : XR).
Hypothesis ASC : ascending times.
Let x : list XR := map n_ofZ times.
Let tm (k : nat) : R := IZR (get 0%Z times k).
Lemma x_get k : k < length times -> x.[k] = XFin (tm k).
Proof using. intros H. unfold x. rewrite (get_map _ 0%Z) by auto. reflexivity. Qed.
Lemma tm_lt i j : i < j < length times -> (tm i < tm j)%R.
Proof using ASC. intros H. apply IZR_lt, ASC; auto. Qed.
Lemma tm_le i j : i <= j -> j < length times -> (tm i <= tm j)%R.
Proof using ASC. intros H K. destruct (Nat.eq_dec i j) as [->|N]; [lra|]. left. apply tm_lt. lia. Qed.
Lemma short_inside i j i' j' : i <= i' -> i' < j' -> j' <= j -> j < length times -> short x mg i j -> short x mg i' j'.
Proof using ASC.
  intros A B C D. unfold short. rewrite !x_get by lia. cbn. destruct mg as [| |g|]; auto. pose proof (tm_le i i' A ltac:(lia)). pose proof (tm_le j' j C D). intros Q. xcases; auto. lra.
Qed.

Variable l : list XR.
Hypothesis LEN : length l = length times.
Hypothesis FIN : forall k, k < length l -> n_isinf l.[k] = false.
Lemma valid_fin k : k < length l -> valid l k -> exists v, l.[k] = XFin v.
Proof using FIN. intros H V. specialize (FIN k H). unfold valid in V. destruct l.[k] as [| |v|]; try discriminate. eauto. Qed.
Lemma fill_line i t j a b : in_gap (valid l) (length l) i t j -> short x mg i j -> l.[i] = XFin a -> l.[j] = XFin b ->
  (interpolate_na x mg l).[t] = XFin (lin a b (tm i) (tm j) (tm t)).
Proof using ASC LEN.
  intros G SH A B. rewrite (ina_gap _ _ _ i t j G SH). destruct G as (G1 & G2 & _). rewrite !x_get by lia. rewrite A, B.
  pose proof (tm_lt i t ltac:(lia)). pose proof (tm_lt t j ltac:(lia)). cbn. unfold xdiv. rewrite Flocq.Core.Raux.Req_bool_false by lra. cbn. f_equal. unfold lin. field. lra.
Qed.
(** between two measured samples at most [mg] apart everything is filled *)
Lemma gap_around i t j : i < t < j -> j < length l -> valid l i -> valid l j -> ~ valid l t -> exists i' j', i <= i' /\ j' <= j /\ in_gap (valid l) (length l) i' t j'.
Proof using.
  clear LEN. intros H J Vi Vj Nt.
  destruct (find (fun k => negb (n_isnan (nget l k))) (rev (seq 0 t))) as [i'|] eqn:E1.
  2:{ exfalso. pose proof (find_none _ _ E1 i) as Q. cbv beta in Q. assert (In i (rev (seq 0 t))) as I by (rewrite <- in_rev; apply in_seq; lia). specialize (Q I). unfold valid in Vi. unfold nget in Q. rewrite Vi in Q. discriminate. }
  destruct (find (fun k => negb (n_isnan (nget l k))) (seq (t + 1) (length l - (t + 1)))) as [j'|] eqn:E2.
  2:{ exfalso. pose proof (find_none _ _ E2 j) as Q. cbv beta in Q. assert (In j (seq (t + 1) (length l - (t + 1)))) as I by (apply in_seq; lia). specialize (Q I). unfold valid in Vj. unfold nget in Q. rewrite Vj in Q. discriminate. }
  apply find_before in E1 as (A & B & C). apply find_after in E2 as (A' & B' & C'). apply negb_true_iff in B. apply negb_true_iff in B'.
  assert (IV : forall k, i' < k < j' -> ~ valid l k).
  { intros k Hk. destruct (lt_eq_lt_dec k t) as [[K|K]|K].
    - specialize (C k ltac:(lia)). apply negb_false_iff in C. unfold valid. unfold nget in C. congruence.
    - subst. auto.
    - specialize (C' k ltac:(lia)). apply negb_false_iff in C'. unfold valid. unfold nget in C'. congruence. }
  exists i', j'. repeat split; auto; try lia.
  - destruct (le_lt_dec i i'); auto. exfalso. apply (IV i); auto. lia.
  - destruct (le_lt_dec j' j); auto. exfalso. apply (IV j); auto. lia.
Qed.
Lemma lin_range a b i t j : i < t < j -> j < length times -> (Rmin a b <= lin a b (tm i) (tm j) (tm t) <= Rmax a b)%R.
Proof using ASC. clear LEN. intros H J. apply on_line. split; apply tm_lt; lia. Qed.
Lemma fill_in i t j : i < t < j -> j < length l -> valid l i -> valid l j -> short x mg i j ->
  exists v, (interpolate_na x mg l).[t] = XFin v /\ forall a d, (forall k w, i <= k <= j -> valid l k -> l.[k] = XFin w -> (a <= w <= a + d)%R) -> (a <= v <= a + d)%R.
Proof using ASC LEN FIN.
  intros H J Vi Vj SH. destruct (n_isnan l.[t]) eqn:N.
  - destruct (gap_around i t j) as (i' & j' & I & K & G); auto; [unfold valid; congruence|]. pose proof G as ((G1 & G1') & G2 & G3 & G4 & _).
    destruct (valid_fin i') as (p & P); [lia|auto|]. destruct (valid_fin j') as (q & Q); [lia|auto|].
    exists (lin p q (tm i') (tm j') (tm t)). split; [apply fill_line; auto; apply (short_inside i j); auto; lia|].
    intros a d B. pose proof (B i' p ltac:(lia) G3 P). pose proof (B j' q ltac:(lia) G4 Q). pose proof (lin_range p q i' t j' ltac:(lia) ltac:(lia)) as Z.
    unfold Rmin, Rmax in Z. destruct (Rle_dec p q); lra.
  - destruct (valid_fin t) as (v & V); [lia|auto|]. exists v. rewrite ina_valid by (auto; lia). split; auto. intros a d B. apply (B t v); auto. lia.
Qed.
End Exact.

Section Order.
Variables (times : list Z) (mg : XR) (T R : list XR).
Hypotheses (ASC : ascending times) (LT : length T = length times) (LR : length R = length times)
  (FT : forall k, k < length T -> n_isinf T.[k] = false) (FR : forall k, k < length R -> n_isinf R.[k] = false).
Let x : list XR := map n_ofZ times.
Let D := map2 n_sub T R.
Let J := interpolate_na x mg D.
Let P := map2 n_sub (interpolate_na x mg R) (interpolate_na x mg T).
Notation tm k := (IZR (get 0%Z times k)).
Lemma D_len : length D = length times.
Proof using LT LR. unfold D. rewrite map2_length; congruence. Qed.
Lemma D_get k : k < length times -> D.[k] = n_sub T.[k] R.[k].
Proof using LT LR. intros H. unfold D. apply get_map2; congruence. Qed.
Lemma P_get k : k < length times -> P.[k] = n_sub (interpolate_na x mg R).[k] (interpolate_na x mg T).[k].
Proof using LT LR. intros H. unfold P. apply get_map2; rewrite ?ina_length, ?LT, ?LR; auto. Qed.
Lemma D_valid k : k < length times -> valid D k <-> valid T k /\ valid R k.
Proof using LT LR FT FR.
  intros H. unfold valid. rewrite D_get by auto. specialize (FT k ltac:(lia)). specialize (FR k ltac:(lia)). destruct T.[k], R.[k]; try discriminate; cbn; intuition discriminate.
Qed.
Lemma D_fin : forall k, k < length D -> n_isinf D.[k] = false.
Proof using LT LR FT FR.
  intros k H. rewrite D_len in H. rewrite D_get by auto. specialize (FT k ltac:(lia)). specialize (FR k ltac:(lia)). destruct T.[k], R.[k]; try discriminate; reflexivity.
Qed.

(** a step available after the difference was filled is available if the levels are filled *)
Lemma joint_cases t : t < length times -> ~ missing J.[t] ->
  (valid T t /\ valid R t) \/ exists i j, in_gap (fun k => valid T k /\ valid R k) (length times) i t j /\ short x mg i j.
Proof using LT LR FT FR.
  intros H NM. destruct (n_isnan D.[t]) eqn:N.
  - right. destruct (ina_filled XRsem x mg D t) as (i & j & G & SH); [rewrite D_len; auto|unfold valid; congruence|unfold valid, missing in *; apply not_true_is_false; auto|].
    exists i, j. split; auto. refine (proj1 (gap_iff (valid D) _ (length D) _ i t j _ D_len) G). intros k Hk. rewrite D_len in Hk. apply D_valid; auto.
  - left. apply D_valid; auto.
Qed.
Lemma order_close t : t < length times -> ~ missing J.[t] -> ~ missing P.[t].
Proof using ASC LT LR FT FR.
  intros H NM. rewrite P_get by auto. destruct (joint_cases t H NM) as [[VT VR]|(i & j & (G1 & G2 & (G3 & G3') & (G4 & G4') & _) & SH)].
  - rewrite !ina_valid by (auto; congruence). unfold valid in *. specialize (FT t ltac:(lia)). specialize (FR t ltac:(lia)). destruct T.[t], R.[t]; discriminate.
  - destruct (fill_in times mg ASC T LT FT i t j) as (v & V & _); auto; try lia. destruct (fill_in times mg ASC R LR FR i t j) as (w & W & _); auto; try lia.
    unfold x. rewrite V, W. intros Q. discriminate Q.
Qed.
Lemma order_measured t : t < length times -> valid T t -> valid R t -> exists v, J.[t] = XFin v /\ P.[t] = XFin (- v).
Proof using LT LR FT FR.
  intros H VT VR. rewrite P_get by auto. assert (VD : valid D t) by (apply D_valid; auto). unfold J. rewrite (ina_valid x mg D) by (rewrite ?D_len; auto).
  rewrite !ina_valid by (auto; congruence). rewrite D_get by auto. destruct (valid_fin T FT t) as (a & A); [lia|auto|]. destruct (valid_fin R FR t) as (b & B); [lia|auto|].
  rewrite A, B. exists (a - b)%R. cbn. split; [reflexivity|]. f_equal. ring.
Qed.
Lemma order_bound t i j d e : in_gap (fun k => valid T k /\ valid R k) (length times) i t j -> short x mg i j ->
  spread (valid T) T i j d -> spread (valid R) R i j e -> opposite_within (d + e) J.[t] P.[t].
Proof using ASC LT LR FT FR.
  intros G SH (a & BT) (c & BR). pose proof G as (G1 & G2 & (G3 & G3') & (G4 & G4') & _). rewrite P_get by lia.
  destruct (fill_in times mg ASC T LT FT i t j) as (v & V & HV); auto; try lia. destruct (fill_in times mg ASC R LR FR i t j) as (w & W & HW); auto; try lia.
  destruct (valid_fin T FT i) as (a0 & A0); [lia|auto|]. destruct (valid_fin T FT j) as (a1 & A1); [lia|auto|].
  destruct (valid_fin R FR i) as (b0 & B0); [lia|auto|]. destruct (valid_fin R FR j) as (b1 & B1); [lia|auto|].
  assert (GD : in_gap (valid D) (length D) i t j) by (refine (proj2 (gap_iff (valid D) _ (length D) _ i t j _ D_len) G); intros k Hk; rewrite D_len in Hk; apply D_valid; auto).
  assert (EJ : J.[t] = XFin (lin (a0 - b0) (a1 - b1) (tm i) (tm j) (tm t))).
  { apply (fill_line times mg ASC D D_len i t j); auto; rewrite D_get by lia; rewrite ?A0, ?A1, ?B0, ?B1; reflexivity. }
  exists (lin (a0 - b0) (a1 - b1) (tm i) (tm j) (tm t)), (w - v)%R. split; [exact EJ|]. split; [unfold x; rewrite V, W; reflexivity|].
  pose proof (HV a d (fun k w Hk => BT k w Hk)) as RV. pose proof (HW c e (fun k w Hk => BR k w Hk)) as RW.
  pose proof (lin_range times ASC a0 a1 i t j G1 G2) as LA. pose proof (lin_range times ASC b0 b1 i t j G1 G2) as LB.
  pose proof (BT i a0 ltac:(lia) G3 A0). pose proof (BT j a1 ltac:(lia) G4 A1). pose proof (BR i b0 ltac:(lia) G3' B0). pose proof (BR j b1 ltac:(lia) G4' B1).
  replace (lin (a0 - b0) (a1 - b1) (tm i) (tm j) (tm t)) with (lin a0 a1 (tm i) (tm j) (tm t) - lin b0 b1 (tm i) (tm j) (tm t))%R by (unfold lin; ring).
  assert (a <= lin a0 a1 (tm i) (tm j) (tm t) <= a + d)%R by (unfold Rmin, Rmax in LA; destruct (Rle_dec a0 a1); lra).
  assert (c <= lin b0 b1 (tm i) (tm j) (tm t) <= c + e)%R by (unfold Rmin, Rmax in LB; destruct (Rle_dec b0 b1); lra).
  apply Rabs_le. lra.
Qed.
Lemma order_same t : (forall k, k < length times -> valid T k <-> valid R k) -> t < length times ->
  (missing J.[t] /\ missing P.[t]) \/ exists v, J.[t] = XFin v /\ P.[t] = XFin (- v).
Proof using ASC LT LR FT FR.
  intros E H. destruct (n_isnan J.[t]) eqn:N.
  - left. split; [exact N|]. rewrite P_get by auto.
    assert (NT : ~ valid T t) by (intros VT; destruct (order_measured t H VT (proj1 (E t H) VT)) as (v & Q & _); rewrite Q in N; discriminate).
    assert (M : missing (interpolate_na x mg T).[t]).
    { unfold missing. destruct (n_isnan (interpolate_na x mg T).[t]) eqn:Q; auto. exfalso.
      destruct (ina_filled XRsem x mg T t) as (i & j & G & SH); [congruence|auto|exact Q|].
      assert (GD : in_gap (valid D) (length D) i t j) by (refine (proj2 (gap_iff (valid D) (valid T) (length D) (length T) i t j _ _) G); [|rewrite D_len; congruence]; intros k Hk; rewrite D_len in Hk; rewrite D_valid by auto; pose proof (E k Hk); tauto).
      pose proof GD as (G1 & G2 & G3 & G4 & _). rewrite D_len in G2.
      destruct (valid_fin D D_fin i) as (a & A); [rewrite D_len; lia|auto|]. destruct (valid_fin D D_fin j) as (b & B); [rewrite D_len; lia|auto|].
      unfold J, x in N. rewrite (fill_line times mg ASC D D_len i t j a b GD SH A B) in N. discriminate. }
    apply (sub_nan2 XRsem). exact M.
  - right. destruct (joint_cases t H) as [[VT VR]|(i & j & G & SH)]; [unfold missing; congruence|apply order_measured; auto|].
    pose proof G as (G1 & G2 & (G3 & G3') & (G4 & G4') & G5).
    destruct (valid_fin T FT i) as (a0 & A0); [lia|auto|]. destruct (valid_fin T FT j) as (a1 & A1); [lia|auto|].
    destruct (valid_fin R FR i) as (b0 & B0); [lia|auto|]. destruct (valid_fin R FR j) as (b1 & B1); [lia|auto|].
    assert (GD : in_gap (valid D) (length D) i t j) by (refine (proj2 (gap_iff (valid D) _ (length D) _ i t j _ D_len) G); intros k Hk; rewrite D_len in Hk; apply D_valid; auto).
    assert (GT : in_gap (valid T) (length T) i t j) by (refine (proj2 (gap_iff (valid T) _ (length T) _ i t j _ LT) G); intros k Hk; rewrite LT in Hk; pose proof (E k Hk); tauto).
    assert (GR : in_gap (valid R) (length R) i t j) by (refine (proj2 (gap_iff (valid R) _ (length R) _ i t j _ LR) G); intros k Hk; rewrite LR in Hk; pose proof (E k Hk); tauto).
    exists (lin (a0 - b0) (a1 - b1) (tm i) (tm j) (tm t)). split.
    + apply (fill_line times mg ASC D D_len i t j); auto; rewrite D_get by lia; rewrite ?A0, ?A1, ?B0, ?B1; reflexivity.
    + rewrite P_get by auto. unfold x. rewrite (fill_line times mg ASC T LT i t j a0 a1 GT SH A0 A1), (fill_line times mg ASC R LR i t j b0 b1 GR SH B0 B1).
      cbn. f_equal. unfold lin. ring.
Qed.
End Order.

(** ** the two notebooks *)
Lemma xr_one_nan (v : XR) : n_isnan v = true -> v = n_nan.
Proof. destruct v; try discriminate. reflexivity. Qed.
Lemma f64_one_nan (v : F64) : n_isnan v = true -> v = n_nan.
Proof. intros H. rewrite (is_nan v H). reflexivity. Qed.
Section Notebooks.
Variables (p : raw_par XR) (lo hi : XR) (times : list Z) (tsl rsl : list XR).
Hypotheses (ASC : ascending times) (LT : length tsl = length times) (LR : length rsl = length times)
  (IT : no_inf tsl) (IR : no_inf rsl) (F1 : n_ltb (rp_fill_t p) hi = false) (F2 : n_ltb lo (rp_fill_r p) = false)
  (PT : plausible (rp_fill_t p) (below hi) tsl) (PR : plausible (rp_fill_r p) (above lo) rsl).
Let x : list XR := map n_ofZ times.
Notation trsl := (prepared p x tsl rsl).
Notation level := (rstl lo hi (rp_max_gap p) times rsl tsl).
Notation both := (fun k => sent hi tsl k /\ received lo rsl k).
Let T := where_below hi tsl.
Let R_ := where_above lo rsl.
Lemma nb_joint : trsl = interpolate_na x (rp_max_gap p) (map2 n_sub T R_).
Proof using F1 F2 PT PR. unfold prepared. f_equal. apply (rules_agree XRsem xr_one_nan); auto. Qed.
Lemma nb_T : length T = length times.
Proof using LT. unfold T. rewrite below_length. exact LT. Qed.
Lemma nb_R : length R_ = length times.
Proof using LR. unfold R_. rewrite above_length. exact LR. Qed.
Lemma nb_FT k : k < length T -> n_isinf T.[k] = false.
Proof using IT LT.
  intros H. rewrite nb_T in H. unfold T. rewrite below_get by congruence. destruct (n_ltb tsl.[k] hi); [|reflexivity]. apply IT. unfold get. apply nth_In. congruence.
Qed.
Lemma nb_FR k : k < length R_ -> n_isinf R_.[k] = false.
Proof using IR LR.
  intros H. rewrite nb_R in H. unfold R_. rewrite above_get by congruence. destruct (n_ltb lo rsl.[k]); [|reflexivity]. apply IR. unfold get. apply nth_In. congruence.
Qed.
Lemma nb_VT k : k < length times -> valid T k <-> sent hi tsl k.
Proof using LT. intros H. apply (below_valid XRsem). congruence. Qed.
Lemma nb_VR k : k < length times -> valid R_ k <-> received lo rsl k.
Proof using LR. intros H. apply (above_valid XRsem). congruence. Qed.
Lemma nb_available t : t < length times -> ~ missing trsl.[t] -> ~ missing level.[t].
Proof using ASC LT LR IT IR F1 F2 PT PR. rewrite nb_joint. intros H. apply (order_close times (rp_max_gap p) T R_ ASC nb_T nb_R nb_FT nb_FR t H). Qed.
Lemma nb_same t : (forall k, k < length times -> sent hi tsl k <-> received lo rsl k) -> t < length times ->
  (missing trsl.[t] /\ missing level.[t]) \/ exists v, trsl.[t] = XFin v /\ level.[t] = XFin (- v).
Proof using ASC LT LR IT IR F1 F2 PT PR.
  rewrite nb_joint. intros E H. apply (order_same times (rp_max_gap p) T R_ ASC nb_T nb_R nb_FT nb_FR t); auto. intros k Hk. rewrite nb_VT, nb_VR by auto. auto.
Qed.
Lemma nb_measured t : t < length times -> sent hi tsl t -> received lo rsl t -> exists v, trsl.[t] = XFin v /\ level.[t] = XFin (- v).
Proof using LT LR IT IR F1 F2 PT PR.
  rewrite nb_joint. intros H A B. apply (order_measured times (rp_max_gap p) T R_ nb_T nb_R nb_FT nb_FR t); auto; [apply nb_VT|apply nb_VR]; auto.
Qed.
Lemma nb_bound t i j d e : in_gap both (length times) i t j -> short x (rp_max_gap p) i j ->
  spread (sent hi tsl) tsl i j d -> spread (received lo rsl) rsl i j e -> opposite_within (d + e) trsl.[t] level.[t].
Proof using ASC LT LR IT IR F1 F2 PT PR.
  intros G SH (a & A) (c & C). rewrite nb_joint. pose proof G as (G1 & G2 & _). apply (order_bound times (rp_max_gap p) T R_ ASC nb_T nb_R nb_FT nb_FR t i j d e); auto.
  - refine (proj2 (gap_iff _ both _ _ i t j _ eq_refl) G). intros k Hk. cbv beta. rewrite nb_VT, nb_VR by auto. tauto.
  - exists a. intros k v Hk V E. assert (K : k < length times) by lia. apply nb_VT in V; auto. apply (A k v); auto. unfold T in E. rewrite below_get in E by congruence. unfold sent in V. rewrite V in E. exact E.
  - exists c. intros k v Hk V E. assert (K : k < length times) by lia. apply nb_VR in V; auto. apply (C k v); auto. unfold R_ in E. rewrite above_get in E by congruence. unfold received in V. rewrite V in E. exact E.
Qed.
End Notebooks.
