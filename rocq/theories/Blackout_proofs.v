From Coq Require Import List ZArith Bool Lia Arith.
From Verif Require Import Base Num NumList Blackout_model Blackout_spec.
Import ListNotations.
Local Open Scope nat_scope.

Lemma np_roll_length s l : length (np_roll s l) = length l.
Proof. unfold np_roll. rewrite map_length, seq_length; auto. Qed.

Lemma np_roll_m1 l i : i < length l -> get false (np_roll (-1) l) i = get false l (cyc_next (length l) i).
Proof.
  intros. unfold np_roll. rewrite get_map_seq by auto. f_equal. unfold cyc_next.
  destruct (Nat.eqb_spec (i + 1) (length l)).
  - replace (Z.of_nat i - -1)%Z with (Z.of_nat (length l)) by lia. rewrite Z_mod_same_full. auto.
  - rewrite Z.mod_small by lia. lia.
Qed.

Lemma np_roll_1 l i : i < length l -> get false (np_roll 1 l) i = get false l (cyc_prev (length l) i).
Proof.
  intros. unfold np_roll. rewrite get_map_seq by auto. f_equal. unfold cyc_prev.
  destruct i.
  - replace (Z.of_nat 0 - 1)%Z with (Z.of_nat (length l) - 1 + (-1) * Z.of_nat (length l))%Z by lia.
    rewrite Z_mod_plus_full, Z.mod_small by lia. lia.
  - rewrite Z.mod_small by lia. lia.
Qed.

Lemma cyc_next_lt n i : i < n -> cyc_next n i < n.
Proof. unfold cyc_next. destruct (Nat.eqb_spec (i + 1) n); lia. Qed.
Lemma cyc_prev_lt n i : i < n -> cyc_prev n i < n.
Proof. unfold cyc_prev. destruct i; lia. Qed.

Section P.
Context {O : numops} (S : numsem O).

Lemma markers_spec (rsl : list O) thr gs ge :
  get_blackout_start_and_end rsl thr = (gs, ge) ->
  length gs = length rsl /\ length ge = length rsl /\
  forall i, i < length rsl ->
    (get false gs i = true <-> is_low rsl thr i /\ is_missing rsl (cyc_next (length rsl) i)) /\
    (get false ge i = true <-> is_low rsl thr i /\ is_missing rsl (cyc_prev (length rsl) i)).
Proof.
  unfold get_blackout_start_and_end. intros E; injection E as <- <-.
  split; [|split].
  - rewrite map2_length; rewrite np_roll_length, !map_length; auto.
  - rewrite map2_length; rewrite np_roll_length, !map_length; auto.
  - intros i Hi. unfold is_low, is_missing.
    rewrite !get_map2 with (da := false) (db := false) by (rewrite ?np_roll_length, ?map_length; auto).
    rewrite np_roll_m1, np_roll_1 by (rewrite map_length; auto). rewrite map_length.
    rewrite !get_map with (d := (n_nan : O)) by (auto using cyc_next_lt, cyc_prev_lt).
    rewrite !andb_true_iff. tauto.
Qed.

(** scan state after processing steps 0..i-1 *)
Definition live (rsl : list O) (gs ge : list bool) (i : nat) : Prop :=
  exists j, j < i /\ get false gs j = true /\ get false ge j = false /\
    forall k, j < k < i -> is_missing rsl k /\ get false ge k = false.

Lemma mask_loop (rsl : list O) gs ge :
  let st := for_range 0 (length rsl) (mask_body rsl gs ge) (repeat false (length rsl), false) in
  length (fst st) = length rsl /\
  forall i, i < length rsl ->
    (get false (fst st) i = true <-> is_missing rsl i /\ live rsl gs ge (Datatypes.S i)).
Proof.
  cbv zeta.
  pose proof (for_range_inv (fun n (st : list bool * bool) =>
     length (fst st) = length rsl /\ (snd st = true <-> live rsl gs ge n) /\
     (forall i, n <= i -> get false (fst st) i = false) /\
     forall i, i < n ->
       (get false (fst st) i = true <-> is_missing rsl i /\ live rsl gs ge (Datatypes.S i)))
     0 (length rsl) (mask_body rsl gs ge) (repeat false (length rsl), false)) as H.
  destruct H as (H1 & H2 & H3 & H4).
  - simpl. split; [apply repeat_length|]. split.
    { split; [discriminate|]. intros (j & Hj & _); lia. }
    split; [|intros; lia]. intros i _. unfold get. destruct (le_lt_dec (length rsl) i).
    + apply nth_overflow. rewrite repeat_length; auto.
    + apply nth_repeat.
  - intros i [mask ig] Hi (L & Hl & Hz & Hm). simpl in L, Hl, Hz, Hm.
    unfold mask_body.
    set (g1 := if get false gs i then true else ig).
    set (g2 := if negb (get false gs i) && negb (n_isnan (nget rsl i)) then false else g1).
    set (g3 := if get false ge i then false else g2).
    assert (E : g3 = true <-> live rsl gs ge (Datatypes.S i)).
    { unfold g3, g2, g1. split.
      - destruct (get false ge i) eqn:Ee; [discriminate|].
        destruct (get false gs i) eqn:Es; simpl.
        + intros _. exists i. repeat split; auto; try lia; intros; lia.
        + destruct (n_isnan (nget rsl i)) eqn:En; simpl; [|discriminate].
          intros Hig. apply Hl in Hig as (j & Hj & A & B & C).
          exists j. repeat split; auto; try lia;
            destruct (Nat.eq_dec k i); subst; auto; apply C; lia.
      - intros (j & Hj & A & B & C). destruct (Nat.eq_dec j i).
        + subst. rewrite A, B. auto.
        + destruct (C i) as [C1 C2]; [lia|]. rewrite C2.
          destruct (get false gs i); simpl; auto. unfold is_missing in C1.
          unfold nget. rewrite C1. simpl.
          apply Hl. exists j. repeat split; auto; try lia; apply C; lia. }
    cbn [fst snd]. fold g1 g2 g3.
    set (mask' := if g3 && n_isnan (nget rsl i) then upd i true mask else mask).
    assert (M : forall k, get false mask' k = if Nat.eqb k i then g3 && n_isnan (nget rsl i) else get false mask k).
    { intros k. unfold mask'. destruct (Nat.eqb_spec k i).
      - subst. destruct (g3 && n_isnan (nget rsl i)); [apply get_upd_eq; lia|apply Hz; lia].
      - destruct (g3 && n_isnan (nget rsl i)); auto. apply get_upd_neq; lia. }
    split; [unfold mask'; destruct (g3 && n_isnan (nget rsl i)); rewrite ?upd_length; auto|].
    split; [exact E|]. split.
    + intros k Hk. rewrite M. destruct (Nat.eqb_spec k i); [lia|]. apply Hz; lia.
    + intros k Hk. rewrite M. destruct (Nat.eqb_spec k i).
      * subst. rewrite andb_true_iff, E. unfold is_missing, nget. tauto.
      * apply Hm; lia.
  - split; auto.
Qed.

Lemma mask_general (rsl : list O) gs ge :
  length gs = length rsl -> length ge = length rsl ->
  exists m, created_blackout_gap_mask rsl gs ge = Ok m /\ length m = length rsl /\
    forall i, i < length rsl ->
      (get false m i = true <->
       is_missing rsl i /\
       exists j, j <= i /\ get false gs j = true /\ get false ge j = false /\
         forall k, j < k <= i -> is_missing rsl k /\ get false ge k = false).
Proof.
  intros H1 H2. unfold created_blackout_gap_mask. rewrite H1, H2, Nat.ltb_irrefl. simpl.
  pose proof (mask_loop rsl gs ge) as [A B]. eexists; split; [reflexivity|]. split; auto.
  intros i Hi. rewrite (B i Hi). split; intros [M (j & P1 & P2 & P3 & P4)]; split; auto;
    exists j; repeat split; auto; try lia; apply P4; lia.
Qed.

Lemma low_not_missing (rsl : list O) thr i : is_low rsl thr i -> ~ is_missing rsl i.
Proof.
  unfold is_low, is_missing. intros H1 H2. rewrite (ltb_nan_l S) in H1 by auto. discriminate.
Qed.

Lemma missing_not_low (rsl : list O) thr i : is_missing rsl i -> ~ is_low rsl thr i.
Proof. intros H1 H2. eapply low_not_missing; eauto. Qed.

Lemma mask_markers (rsl : list O) thr gs ge :
  get_blackout_start_and_end rsl thr = (gs, ge) ->
  exists m, created_blackout_gap_mask rsl gs ge = Ok m /\ length m = length rsl /\
    forall i, i < length rsl ->
      (get false m i = true <->
       exists p, gap_after rsl p i /\ is_low rsl thr p /\ ~ is_missing rsl (cyc_prev (length rsl) p)).
Proof.
  intros E. destruct (markers_spec _ _ _ _ E) as (L1 & L2 & M).
  destruct (mask_general rsl gs ge L1 L2) as (m & Em & Lm & Hm). exists m; split; auto. split; auto.
  intros i Hi. rewrite (Hm i Hi). split.
  - intros [Mi (j & P1 & P2 & P3 & P4)]. destruct (M j) as [M1 M2]; [lia|].
    apply M1 in P2 as [A B]. exists j. split; [|split; auto].
    + assert (j <> i) by (intros ->; exact (missing_not_low _ _ _ Mi A)).
      split; [lia|]. intros k Hk. apply P4; lia.
    + intros C. assert (get false ge j = true) by (apply M2; auto). congruence.
  - intros (p & (G1 & G2) & Lo & Np). split; [apply G2; lia|].
    exists p. destruct (M p) as [M1 M2]; [lia|]. repeat split; try lia.
    + apply M1. split; auto. unfold cyc_next. destruct (Nat.eqb_spec (p + 1) (length rsl)); [lia|].
      apply G2; lia.
    + apply not_true_is_false; intros Ee. apply M2 in Ee as [_ C]. contradiction.
    + apply G2; lia.
    + apply not_true_is_false; intros Ee. destruct (M k) as [_ M2']; [lia|].
      apply M2' in Ee as [C _]. exfalso. exact (missing_not_low _ _ _ (G2 k ltac:(lia)) C).
Qed.

(** mirror image *)
Lemma get_rev {A} (d : A) l i : i < length l -> get d (rev l) i = get d l (length l - 1 - i).
Proof. intros. unfold get. rewrite rev_nth by auto. f_equal; lia. Qed.

Lemma mask_reversed (rsl : list O) thr gs ge :
  get_blackout_start_and_end rsl thr = (gs, ge) ->
  exists m, created_blackout_gap_mask (rev rsl) (rev ge) (rev gs) = Ok m /\ length m = length rsl /\
    forall i, i < length rsl ->
      (get false (rev m) i = true <->
       exists q, gap_before rsl i q /\ is_low rsl thr q /\ ~ is_missing rsl (cyc_next (length rsl) q)).
Proof.
  intros E. destruct (markers_spec _ _ _ _ E) as (L1 & L2 & M).
  set (n := length rsl) in *.
  destruct (mask_general (rev rsl) (rev ge) (rev gs)) as (m & Em & Lm & Hm);
    try (rewrite !rev_length; auto).
  rewrite rev_length in Lm. fold n in Lm.
  exists m; split; auto. split; auto.
  assert (R : forall i, i < n -> (is_missing (rev rsl) i <-> is_missing rsl (n - 1 - i))).
  { intros i Hi. unfold is_missing. rewrite get_rev by auto. reflexivity. }
  intros i Hi. rewrite get_rev by lia. rewrite Lm. rewrite Hm by (rewrite rev_length; fold n; lia).
  set (i' := n - 1 - i). split.
  - intros [Mi (j & P1 & P2 & P3 & P4)].
    rewrite get_rev in P2, P3 by lia. rewrite L2 in P2. rewrite L1 in P3.
    destruct (M (n - 1 - j)) as [M1 M2]; [lia|]. apply M2 in P2 as [A B].
    rewrite R in Mi by lia. unfold i' in *. replace (n - 1 - (n - 1 - i)) with i in Mi by lia.
    exists (n - 1 - j). split; [|split; auto].
    + assert (n - 1 - j <> i) by (intros Q; rewrite Q in A; exact (missing_not_low _ _ _ Mi A)).
      split; [lia|]. intros k Hk. replace k with (n - 1 - (n - 1 - k)) by lia.
      apply R; [lia|]. apply P4; lia.
    + intros C. assert (get false gs (n - 1 - j) = true) by (apply M1; auto). congruence.
  - intros (q & (G1 & G2) & Lo & Np). fold n in G1. unfold i'. split.
    + apply R; [lia|]. replace (n - 1 - (n - 1 - i)) with i by lia. apply G2; lia.
    + exists (n - 1 - q). destruct (M q) as [M1 M2]; [lia|].
      rewrite !get_rev by lia. rewrite L1, L2.
      replace (n - 1 - (n - 1 - q)) with q by lia. repeat split; try lia.
      * apply M2. split; auto. unfold cyc_prev. destruct q; [lia|]. apply G2; lia.
      * apply not_true_is_false; intros Ee. apply M1 in Ee as [_ C]. contradiction.
      * apply R; [lia|]. apply G2; lia.
      * rewrite get_rev by lia. rewrite L1.
        apply not_true_is_false; intros Ee. destruct (M (n - 1 - k)) as [M1' _]; [lia|].
        apply M1' in Ee as [C _]. exfalso. exact (missing_not_low _ _ _ (G2 (n - 1 - k) ltac:(lia)) C).
Qed.

Lemma notebook_mask_spec (rsl : list O) thr :
  exists m, notebook_mask rsl thr = Ok m /\ length m = length rsl /\
    forall i, i < length rsl ->
      (get false m i = true <->
       (exists p, gap_after rsl p i /\ is_low rsl thr p /\ ~ is_missing rsl (cyc_prev (length rsl) p)) \/
       (exists q, gap_before rsl i q /\ is_low rsl thr q /\ ~ is_missing rsl (cyc_next (length rsl) q))).
Proof.
  unfold notebook_mask. destruct (get_blackout_start_and_end rsl thr) as [gs ge] eqn:E.
  destruct (mask_markers _ _ _ _ E) as (m & Em & Lm & Hm).
  destruct (mask_reversed _ _ _ _ E) as (m2 & Em2 & Lm2 & Hm2).
  rewrite Em, Em2. simpl. eexists; split; [reflexivity|].
  assert (LR : length (rev m2) = length rsl) by (rewrite rev_length; auto).
  split; [rewrite map2_length; lia|]. intros i Hi.
  rewrite get_map2 with (da := false) (db := false) by lia.
  rewrite orb_true_iff, Hm, Hm2 by auto. reflexivity.
Qed.
End P.
