From Coq Require Import List ZArith Bool String Lia.
From Verif Require Import Base Num NumList Median Mlp_model Mlp_spec Mlp_proofs Baseline_model Baseline_spec Baseline_proofs Baseline_proofs2 Chain_spec Workflow_proofs MlpChain_model MlpChain_spec.
Import ListNotations.
Local Open Scope nat_scope.
Local Notation length := List.length.

Section P.
Context {O : numops} (S : numsem O).
Variable predict : string -> list O -> res (O * O).
Local Notation nan2 := ((n_nan, n_nan) : O * O).

Lemma flags_inv bn sel (x1 x2 : list O) wet : mlp_flags predict bn sel x1 x2 = Ok wet ->
  exists rows, mlp_wet_dry predict bn x1 x2 sel = Ok rows /\ length wet = length rows /\
    forall t, t < length rows -> get n_nan wet t = n_ofZ (Z.of_nat (np_argmax2 (get nan2 rows t))).
Proof using.
  unfold mlp_flags. destruct (mlp_wet_dry predict bn x1 x2 sel) as [rows|e] eqn:E; cbn [bind]; [|discriminate]. intros H. injection H as <-.
  exists rows. split; auto. split; [apply map_length|]. intros t Ht. rewrite (get_map _ nan2) by auto. reflexivity.
Qed.
Lemma accepted bn sel (x1 x2 : list O) rows : mlp_wet_dry predict bn x1 x2 sel = Ok rows ->
  length x1 = length x2 /\ ((offline sel /\ 40 <= length x1 /\ (bn = true -> 361 <= length x1)) \/ (online sel /\ 41 <= length x1)).
Proof using.
  intros E. assert (R := mlp_rejects predict bn x1 x2 sel). rewrite E in R.
  assert (D : offline sel \/ online sel \/ (~ offline sel /\ ~ online sel)).
  { unfold offline, online. destruct (string_dec sel "rg"), (string_dec sel "rad"), (string_dec sel "rg_online"), (string_dec sel "rad_online"); tauto. }
  destruct (Nat.eq_dec (length x1) (length x2)) as [L|N]; [|discriminate R; auto]. split; auto.
  destruct D as [D|[D|D]]; [left|right|discriminate R; auto]; split; auto.
  - destruct bn; [destruct (le_lt_dec 361 (length x1))|destruct (le_lt_dec 40 (length x1))]; try (discriminate R; auto; fail); split; try lia; discriminate.
  - destruct (le_lt_dec 41 (length x1)); auto. discriminate R; auto 6.
Qed.
Lemma argmax_nan2 : np_argmax2 nan2 = 0.
Proof using S. unfold np_argmax2. cbn [fst]. rewrite (isnan_nan S). reflexivity. Qed.
Lemma argmax_cases (p : O * O) : np_argmax2 p = 0 \/ np_argmax2 p = 1.
Proof using. unfold np_argmax2. destruct (n_isnan (fst p)), (n_isnan (snd p)), (n_ltb (fst p) (snd p)); auto. Qed.
Lemma flag_0_dry : n_eqb (n_ofZ (Z.of_nat 0) : O) (n_ofZ 0) = true.
Proof using S. exact (zero_dry S). Qed.
Lemma flag_1_wet : n_eqb (n_ofZ (Z.of_nat 1) : O) (n_ofZ 0) = false.
Proof using S. exact (one_wet S). Qed.

Lemma flag_rule bn sel (x1 x2 : list O) rows wet : mlp_wet_dry predict bn x1 x2 sel = Ok rows -> mlp_flags predict bn sel x1 x2 = Ok wet ->
  length wet = length rows /\ forall t, t < length rows -> let p := get nan2 rows t in
    (flagged_wet wet t <-> n_isnan (fst p) = false /\ (n_isnan (snd p) = true \/ n_ltb (fst p) (snd p) = true)).
Proof using S.
  intros E H. destruct (flags_inv bn sel x1 x2 wet H) as (rows' & E' & L & F). rewrite E in E'. injection E' as <-. split; auto. intros t Ht p.
  unfold flagged_wet. rewrite F by auto. fold p. unfold np_argmax2. pose proof flag_0_dry as D. pose proof flag_1_wet as W.
  destruct (n_isnan (fst p)) eqn:A; [rewrite D; intuition discriminate|]. destruct (n_isnan (snd p)) eqn:B; [rewrite W; intuition auto|].
  destruct (n_ltb (fst p) (snd p)) eqn:C; [rewrite W|rewrite D]; intuition discriminate.
Qed.

(** a wet flag needs a complete window *)
Lemma row_wet lag (d1 d2 : list O) sel t row : row_spec (predict sel) lag d1 d2 t row -> np_argmax2 row = 1 ->
  exists w1 w2, lag <= t /\ clean d1 (t - lag) w1 /\ clean d2 (t - lag) w2 /\ predict sel (w1 ++ w2) = Ok row.
Proof using S. intros [(w1 & w2 & H)|[_ ->]] W; [exists w1, w2; auto|]. rewrite argmax_nan2 in W. discriminate. Qed.
Lemma detrended_needs (x d : list O) a w : detrended x d -> clean d a w -> measured x a (a + 39) /\ enough_around x a (a + 39).
Proof using S.
  intros [L D] (C1 & _ & C). split; [split; [lia|]|]; intros i Hi; destruct (C (i - a) ltac:(lia)) as [_ N]; replace (a + (i - a)) with i in N by lia;
    destruct (D i ltac:(lia)) as (m & E & M1 & _); rewrite E in N.
  - destruct (n_isnan (nget x i)) eqn:Z; auto. rewrite (sub_nan_l S) in N by auto. discriminate.
  - destruct (le_lt_dec 120 (length (around x i))) as [|LT]; auto. rewrite (M1 LT) in N. rewrite (sub_nan_r S) in N by apply (isnan_nan S). discriminate.
Qed.
Lemma differences_need (x d : list O) t w : differences x d -> 40 <= t -> clean d (t - 40) w -> measured x (t - 40) t.
Proof using S.
  intros [L D] Ht (C1 & _ & C). split; [lia|]. intros i Hi. destruct (n_isnan (nget x i)) eqn:Z; auto. exfalso. destruct (Nat.eq_dec i t) as [->|NE].
  - destruct (C 39 ltac:(lia)) as [_ N]. rewrite D in N by lia. replace (t - 40 + 39 + 1) with t in N by lia. rewrite (sub_nan_l S) in N by auto. discriminate.
  - destruct (C (i - (t - 40)) ltac:(lia)) as [_ N]. rewrite D in N by lia. replace (t - 40 + (i - (t - 40))) with i in N by lia. rewrite (sub_nan_r S) in N by auto. discriminate.
Qed.
Lemma flagged_argmax bn sel (x1 x2 wet : list O) rows t : mlp_wet_dry predict bn x1 x2 sel = Ok rows -> length wet = length rows ->
  (forall t, t < length rows -> get n_nan wet t = n_ofZ (Z.of_nat (np_argmax2 (get nan2 rows t)))) -> t < length rows -> flagged_wet wet t -> np_argmax2 (get nan2 rows t) = 1.
Proof using S.
  intros E L W Ht F. unfold flagged_wet in F. rewrite W in F by auto. destruct (argmax_cases (get nan2 rows t)) as [Z|Z]; auto. rewrite Z in F. rewrite flag_0_dry in F. discriminate.
Qed.
Lemma wet_needs_offline bn sel (x1 x2 : list O) wet t : offline sel -> mlp_flags predict bn sel x1 x2 = Ok wet -> t < length x1 -> flagged_wet wet t ->
  20 <= t /\ measured x1 (t - 20) (t + 19) /\ measured x2 (t - 20) (t + 19) /\ enough_around x1 (t - 20) (t + 19) /\ enough_around x2 (t - 20) (t + 19).
Proof using S.
  intros Of E Ht F. destruct (flags_inv _ _ _ _ _ E) as (rows & ER & LW & W). destruct (accepted _ _ _ _ _ ER) as (L & [(_ & L40 & L361)|(On & _)]).
  2:{ exfalso. unfold online, offline in *. destruct On, Of; subst; discriminate. }
  destruct (offline_correct S predict bn x1 x2 sel Of L L40 L361) as (d1 & d2 & D1 & D2 & R & _). destruct (R rows ER) as [LR RS].
  assert (A := flagged_argmax bn sel x1 x2 wet rows t ER LW W ltac:(lia) F).
  destruct (row_wet 20 d1 d2 sel t _ (RS t Ht) A) as (w1 & w2 & H20 & C1 & C2 & _).
  destruct (detrended_needs _ _ _ _ D1 C1) as [M1 A1]. destruct (detrended_needs _ _ _ _ D2 C2) as [M2 A2]. replace (t - 20 + 39) with (t + 19) in * by lia. auto.
Qed.
Lemma wet_needs_online bn sel (x1 x2 : list O) wet t : online sel -> mlp_flags predict bn sel x1 x2 = Ok wet -> t < length x1 -> flagged_wet wet t ->
  40 <= t /\ measured x1 (t - 40) t /\ measured x2 (t - 40) t.
Proof using S.
  intros On E Ht F. destruct (flags_inv _ _ _ _ _ E) as (rows & ER & LW & W). destruct (accepted _ _ _ _ _ ER) as (L & [(Of & _)|(_ & L41)]).
  { exfalso. unfold online, offline in *. destruct On, Of; subst; discriminate. }
  destruct (online_correct S predict bn x1 x2 sel On L L41) as (d1 & d2 & D1 & D2 & R & _). destruct (R rows ER) as [LR RS].
  assert (A := flagged_argmax bn sel x1 x2 wet rows t ER LW W ltac:(lia) F).
  destruct (row_wet 40 d1 d2 sel t _ (RS t Ht) A) as (w1 & w2 & H40 & C1 & C2 & _).
  split; auto. split; [apply (differences_need x1 d1 t w1)|apply (differences_need x2 d2 t w2)]; auto.
Qed.

(** ** the result exists *)
Lemma clean_app (d1 d2 : list O) a w1 w2 : clean d1 a w1 -> clean d2 a w2 -> length (w1 ++ w2) = 80 /\ existsb n_isnan (w1 ++ w2) = false.
Proof using.
  intros C1 C2. rewrite app_length, existsb_app, (clean_no_nan _ _ _ C1), (clean_no_nan _ _ _ C2). destruct C1 as (_ & -> & _), C2 as (_ & -> & _). auto.
Qed.
Lemma chain_total (bn : bool) sel n (x1 x2 : list O) : offline sel \/ online sel -> total_model (predict sel) -> length x1 = length x2 ->
  (offline sel -> (if bn then 361 else 40) <= length x1) -> (online sel -> 41 <= length x1) -> 1 <= n ->
  exists wet b1 b2 : list O, mlp_baselines predict bn sel n x1 x2 = Ok (wet, (b1, b2)) /\ length wet = length x1 /\ length b1 = length x1 /\ length b2 = length x1 /\
    (forall t, t < length x1 -> get n_nan wet t = n_ofZ 0 \/ get n_nan wet t = n_ofZ 1) /\
    forall t, t < length x1 -> ~ flagged_wet wet t -> get n_nan b1 t = get n_nan x1 t /\ get n_nan b2 t = get n_nan x2 t.
Proof using S.
  intros HS TM L L1 L2 Hn.
  assert (X : exists rows, mlp_wet_dry predict bn x1 x2 sel = Ok rows /\ length rows = length x1).
  { destruct HS as [Of|On].
    - specialize (L1 Of). destruct (offline_correct S predict bn x1 x2 sel Of L) as (d1 & d2 & D1 & D2 & R & X); [destruct bn; lia|intros ->; lia|].
      destruct X as [rows ER]. { intros t w1 w2 _ _ C1 C2. destruct (clean_app _ _ _ _ _ C1 C2). apply TM; auto. }
      exists rows. split; auto. apply (R rows ER).
    - specialize (L2 On). destruct (online_correct S predict bn x1 x2 sel On L L2) as (d1 & d2 & D1 & D2 & R & X).
      destruct X as [rows ER]. { intros t w1 w2 _ _ C1 C2. destruct (clean_app _ _ _ _ _ C1 C2). apply TM; auto. }
      exists rows. split; auto. apply (R rows ER). }
  destruct X as (rows & ER & LR). set (wet := map (fun p => n_ofZ (Z.of_nat (np_argmax2 p)) : O) rows).
  assert (LW : length wet = length x1) by (unfold wet; rewrite map_length; auto).
  destruct (constant_dry_final x1 wet n Hn LW) as (b1 & E1 & LB1 & _ & F1). destruct (constant_dry_final x2 wet n Hn ltac:(lia)) as (b2 & E2 & LB2 & _ & F2).
  exists wet, b1, b2. split. { unfold mlp_baselines, mlp_flags. rewrite ER. cbn [bind]. fold wet. rewrite E1. cbn [bind]. rewrite E2. reflexivity. }
  split; auto. split; auto. split; [lia|]. split.
  - intros t Ht. unfold wet. rewrite (get_map _ nan2) by lia. destruct (argmax_cases (get nan2 rows t)) as [Z|Z]; rewrite Z; auto.
  - intros t Ht D. split; [apply F1|apply F2]; auto. lia.
Qed.

(** ** the online chain is causal, also when the record is continued *)
Lemma clean_prefix (x y d e : list O) t w : differences x d -> differences y e -> 40 <= t -> t < length y ->
  same_until n_nan t x y -> clean d (t - 40) w -> clean e (t - 40) w.
Proof using.
  intros [LD D] [LE E] Ht Ly A (C1 & C2 & C3). split; [lia|]. split; auto. intros i Hi. destruct (C3 i Hi) as [Q1 Q2].
  assert (Q : nget e (t - 40 + i) = nget d (t - 40 + i)). { rewrite D, E by lia. unfold nget. rewrite !A by lia. reflexivity. }
  rewrite Q. auto.
Qed.
Lemma same_until_sym {A} (d : A) k l l' : same_until d k l l' -> same_until d k l' l.
Proof using. intros H j Hj. symmetry. auto. Qed.
Lemma online_rows_prefix bn (x1 x2 y1 y2 : list O) sel r q t : online sel ->
  mlp_wet_dry predict bn x1 x2 sel = Ok r -> mlp_wet_dry predict bn y1 y2 sel = Ok q -> t < length x1 -> t < length y1 ->
  same_until n_nan t x1 y1 -> same_until n_nan t x2 y2 -> get nan2 r t = get nan2 q t.
Proof using S.
  intros HS Er Eq Hx Hy A1 A2.
  destruct (accepted _ _ _ _ _ Er) as (L1 & [(Of & _)|(_ & L41)]); [exfalso; unfold online, offline in *; destruct HS, Of; subst; discriminate|].
  destruct (accepted _ _ _ _ _ Eq) as (L2 & [(Of & _)|(_ & L41')]); [exfalso; unfold online, offline in *; destruct HS, Of; subst; discriminate|].
  destruct (online_correct S predict bn x1 x2 sel HS L1 L41) as (d1 & d2 & D1 & D2 & H & _). destruct (H r Er) as [_ R]. specialize (R t Hx).
  destruct (online_correct S predict bn y1 y2 sel HS L2 L41') as (e1 & e2 & E1 & E2 & H' & _). destruct (H' q Eq) as [_ Q]. specialize (Q t Hy).
  assert (P1 : forall w, 40 <= t -> clean d1 (t - 40) w -> clean e1 (t - 40) w) by (intros w Hl C; apply (clean_prefix x1 y1 d1 e1 t w); auto).
  assert (P2 : forall w, 40 <= t -> clean d2 (t - 40) w -> clean e2 (t - 40) w) by (intros w Hl C; apply (clean_prefix x2 y2 d2 e2 t w); auto; lia).
  assert (P3 : forall w, 40 <= t -> clean e1 (t - 40) w -> clean d1 (t - 40) w) by (intros w Hl C; apply (clean_prefix y1 x1 e1 d1 t w); auto using same_until_sym).
  assert (P4 : forall w, 40 <= t -> clean e2 (t - 40) w -> clean d2 (t - 40) w) by (intros w Hl C; apply (clean_prefix y2 x2 e2 d2 t w); auto using same_until_sym; lia).
  destruct R as [(w1 & w2 & Hl & C1 & C2 & R)|[N R]], Q as [(v1 & v2 & Hl' & C1' & C2' & Q)|[N' Q]].
  - rewrite (clean_is_slice _ _ _ (P1 _ Hl C1)), (clean_is_slice _ _ _ (P2 _ Hl C2)) in R. rewrite (clean_is_slice _ _ _ C1'), (clean_is_slice _ _ _ C2') in Q. congruence.
  - exfalso. apply (N' w1 w2). auto.
  - exfalso. apply (N v1 v2). auto.
  - congruence.
Qed.
Lemma rows_length bn sel (x1 x2 : list O) rows : mlp_wet_dry predict bn x1 x2 sel = Ok rows -> length rows = length x1.
Proof using S.
  intros E. destruct (accepted _ _ _ _ _ E) as (L & [(Of & L40 & L361)|(On & L41)]).
  - destruct (offline_correct S predict bn x1 x2 sel Of L L40 L361) as (d1 & d2 & _ & _ & R & _). apply (R rows E).
  - destruct (online_correct S predict bn x1 x2 sel On L L41) as (d1 & d2 & _ & _ & R & _). apply (R rows E).
Qed.
Lemma baselines_inv bn sel n (x1 x2 : list O) wet b1 b2 : mlp_baselines predict bn sel n x1 x2 = Ok (wet, (b1, b2)) ->
  mlp_flags predict bn sel x1 x2 = Ok wet /\ baseline_constant x1 wet n = Ok b1 /\ baseline_constant x2 wet n = Ok b2.
Proof using.
  unfold mlp_baselines. destruct (mlp_flags predict bn sel x1 x2) as [w|e]; cbn [bind]; [|discriminate].
  destruct (baseline_constant x1 w n) as [c1|e] eqn:E1; cbn [bind]; [|discriminate]. destruct (baseline_constant x2 w n) as [c2|e] eqn:E2; cbn [bind]; [|discriminate].
  intros H. injection H as -> -> ->. auto.
Qed.
Lemma online_chain_causal bn sel n (x1 x2 y1 y2 : list O) wet b1 b2 wet' b1' b2' k : online sel ->
  mlp_baselines predict bn sel n x1 x2 = Ok (wet, (b1, b2)) -> mlp_baselines predict bn sel n y1 y2 = Ok (wet', (b1', b2')) ->
  k < length x1 -> k < length y1 -> same_until n_nan k x1 y1 -> same_until n_nan k x2 y2 ->
  same_until n_nan k wet wet' /\ same_until n_nan k b1 b1' /\ same_until n_nan k b2 b2'.
Proof using S.
  intros HS E E' Hx Hy A1 A2. destruct (baselines_inv _ _ _ _ _ _ _ _ E) as (EF & E1 & E2). destruct (baselines_inv _ _ _ _ _ _ _ _ E') as (EF' & E1' & E2').
  destruct (flags_inv _ _ _ _ _ EF) as (r & Er & Lr & W). destruct (flags_inv _ _ _ _ _ EF') as (q & Eq & Lq & W').
  assert (LR := rows_length _ _ _ _ _ Er). assert (LQ := rows_length _ _ _ _ _ Eq). destruct (accepted _ _ _ _ _ Er) as (L1 & _). destruct (accepted _ _ _ _ _ Eq) as (L2 & _).
  assert (SW : same_until n_nan k wet wet').
  { intros j Hj. rewrite W, W' by lia. rewrite (online_rows_prefix bn x1 x2 y1 y2 sel r q j HS Er Eq); auto; try lia; intros i Hi; [apply A1|apply A2]; lia. }
  split; auto. split; intros j Hj.
  - apply (constant_causal x1 wet y1 wet' n b1 b1' j E1 E1'); try lia; intros i Hi; [apply A1|apply SW]; lia.
  - apply (constant_causal x2 wet y2 wet' n b2 b2' j E2 E2'); try lia; intros i Hi; [apply A2|apply SW]; lia.
Qed.
End P.
