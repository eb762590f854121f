From Coq Require Import List ZArith Bool Lia Arith.
From Verif Require Import Base Num NumList Blackout_model Blackout_spec Blackout_proofs BlackoutNb_model BlackoutNb_spec.
Import ListNotations.
Local Open Scope nat_scope.

(** ** reversed records *)
Lemma rev_map2 {A B C} (f : A -> B -> C) l : forall m, length m = length l -> rev (map2 f l m) = map2 f (rev l) (rev m).
Proof.
  assert (AP : forall (l : list A) m a b, length m = length l -> map2 f (l ++ [a]) (m ++ [b]) = map2 f l m ++ [f a b]).
  { induction l0 as [|x l0 IH]; intros [|y m0] a b E; try discriminate; auto. change (f x y :: map2 f (l0 ++ [a]) (m0 ++ [b]) = f x y :: (map2 f l0 m0 ++ [f a b])). f_equal. apply IH. injection E; auto. }
  induction l as [|a l IH]; intros [|b m] H; try discriminate; auto.
  change (rev (map2 f l m) ++ [f a b] = map2 f (rev l ++ [a]) (rev m ++ [b])).
  injection H as H. rewrite AP, IH by (rewrite ?rev_length; auto). reflexivity.
Qed.
Lemma map2_comm {A B} (f : A -> A -> B) : (forall x y, f x y = f y x) -> forall l m, map2 f l m = map2 f m l.
Proof. intros H l. induction l as [|a l IH]; intros [|b m]; auto. change (f a b :: map2 f l m = f b a :: map2 f m l). rewrite H, IH. auto. Qed.
Lemma get_rev {A} (d : A) l i : i < length l -> get d (rev l) i = get d l (length l - 1 - i).
Proof. intros H. unfold get. rewrite rev_nth by auto. f_equal. lia. Qed.
Lemma roll_rev_m1 l : np_roll (-1) (rev l) = rev (np_roll 1 l).
Proof.
  apply get_ext with (d := false); [rewrite np_roll_length, !rev_length, np_roll_length; auto|].
  intros i Hi. rewrite np_roll_length, rev_length in Hi. rewrite np_roll_m1 by (rewrite rev_length; auto). rewrite rev_length.
  rewrite (get_rev false (np_roll 1 l)) by (rewrite np_roll_length; auto). rewrite np_roll_length, np_roll_1 by lia.
  rewrite get_rev by (apply cyc_next_lt; auto). f_equal. unfold cyc_next, cyc_prev. destruct (Nat.eqb_spec (i + 1) (length l)); destruct (length l - 1 - i) eqn:E; lia.
Qed.
Lemma roll_rev_1 l : np_roll 1 (rev l) = rev (np_roll (-1) l).
Proof. rewrite <- (rev_involutive l) at 2. rewrite roll_rev_m1, rev_involutive. reflexivity. Qed.

Section P.
Context {O : numops} (S : numsem O).
Lemma markers_rev (rsl : list O) thr gs ge : get_blackout_start_and_end rsl thr = (gs, ge) -> get_blackout_start_and_end (rev rsl) thr = (rev ge, rev gs).
Proof using.
  unfold get_blackout_start_and_end. intros E. injection E as <- <-. rewrite !map_rev, roll_rev_m1, roll_rev_1.
  rewrite !rev_map2 by (rewrite np_roll_length, !map_length; auto). reflexivity.
Qed.
Lemma mask_rev (rsl : list O) thr m : notebook_mask rsl thr = Ok m -> notebook_mask (rev rsl) thr = Ok (rev m).
Proof using.
  unfold notebook_mask. destruct (get_blackout_start_and_end rsl thr) as [gs ge] eqn:E. rewrite (markers_rev rsl thr gs ge E), !rev_involutive.
  destruct (markers_spec rsl thr gs ge E) as (L1 & L2 & _).
  destruct (mask_general rsl gs ge L1 L2) as (m1 & E1 & LM1 & _). rewrite E1. cbn [bind].
  destruct (mask_general (rev rsl) (rev ge) (rev gs)) as (m2 & E2 & LM2 & _); [rewrite !rev_length; auto|rewrite !rev_length; auto|]. rewrite E2. cbn [bind].
  rewrite rev_length in LM2. intros K. injection K as <-. f_equal. rewrite rev_map2, rev_involutive by (rewrite rev_length, LM1, LM2; auto). apply map2_comm. apply orb_comm.
Qed.

(** ** threshold *)
Lemma mask_threshold (rsl : list O) thr thr' m m' : n_leb thr thr' = true -> notebook_mask rsl thr = Ok m -> notebook_mask rsl thr' = Ok m' ->
  forall i, get false m i = true -> get false m' i = true.
Proof using S.
  intros H E E' i Hi. destruct (notebook_mask_spec S rsl thr) as (m1 & E1 & L1 & M1). rewrite E in E1. injection E1 as <-.
  destruct (notebook_mask_spec S rsl thr') as (m2 & E2 & L2 & M2). rewrite E' in E2. injection E2 as <-.
  assert (Hl : i < length rsl).
  { rewrite <- L1. destruct (le_lt_dec (length m) i); auto. unfold get in Hi. rewrite nth_overflow in Hi by auto. discriminate. }
  assert (LO : forall p, is_low rsl thr p -> is_low rsl thr' p).
  { unfold is_low. intros p. rewrite !(val_ltb _ S). rewrite (val_leb _ S) in H. intros K. eapply xltb_leb_trans; eauto. }
  apply M2; auto. apply M1 in Hi; auto. destruct Hi as [(p & A & B & C)|(p & A & B & C)]; [left|right]; exists p; auto.
Qed.

(** ** raw levels *)
Lemma above_get fill (raw : list O) i : i < length raw -> get n_nan (where_above fill raw) i = if n_ltb fill (get n_nan raw i) then get n_nan raw i else n_nan.
Proof using. intros H. unfold where_above. apply (get_map (fun v => if n_ltb fill v then v else n_nan)). auto. Qed.
Lemma raw_mask fill thr (raw : list O) : exists m, blackout_mask fill thr raw = Ok m /\ length m = length raw /\
  forall i, i < length raw -> get false m i = true -> n_ltb fill (get n_nan raw i) = false /\
    exists p, p < length raw /\ n_ltb fill (get n_nan raw p) = true /\ n_ltb (get n_nan raw p) thr = true /\
      forall j, (p < j <= i \/ i <= j < p) -> n_ltb fill (get n_nan raw j) = false.
Proof using S.
  unfold blackout_mask. destruct (notebook_mask_spec S (where_above fill raw) thr) as (m & E & L & M).
  assert (LW : length (where_above fill raw) = length raw) by (unfold where_above; apply map_length). rewrite LW in *.
  exists m. split; auto. split; auto. intros i Hi Hm. apply M in Hm; auto.
  assert (MI : forall j, j < length raw -> is_missing (where_above fill raw) j -> n_ltb fill (get n_nan raw j) = false).
  { intros j Hj K. unfold is_missing in K. rewrite above_get in K by auto. destruct (n_ltb fill (get n_nan raw j)) eqn:F; auto.
    rewrite (ltb_nan_r S) in F by exact K. discriminate. }
  assert (LOW : forall p, p < length raw -> is_low (where_above fill raw) thr p -> n_ltb fill (get n_nan raw p) = true /\ n_ltb (get n_nan raw p) thr = true).
  { intros p Hp K. unfold is_low in K. rewrite above_get in K by auto. destruct (n_ltb fill (get n_nan raw p)); auto.
    rewrite (ltb_nan_l S) in K by apply (isnan_nan S). discriminate. }
  destruct Hm as [(p & (G1 & G2) & B & _)|(p & (G1 & G2) & B & _)]; rewrite LW in G1.
  - split; [apply MI; auto; apply G2; lia|]. exists p. split; [lia|]. destruct (LOW p) as [A1 A2]; [lia|auto|]. split; auto. split; auto.
    intros j [Hj|Hj]; [apply MI; [lia|apply G2; lia]|lia].
  - split; [apply MI; auto; apply G2; lia|]. exists p. split; [lia|]. destruct (LOW p) as [A1 A2]; [lia|auto|]. split; auto. split; auto.
    intros j [Hj|Hj]; [lia|apply MI; [lia|apply G2; lia]].
Qed.
End P.

(** ** the plotted gaps *)
Lemma diff_length l : length (np_diff l) = length l - 1.
Proof. induction l as [|a [|b l] IH]; auto. cbn [np_diff length] in *. lia. Qed.
Lemma diff_get l : forall i, i + 1 < length l -> get 0%Z (np_diff l) i = (get 0 l (i + 1) - get 0 l i)%Z.
Proof.
  induction l as [|a [|b l] IH]; intros i H; try (cbn in H; lia). destruct i as [|i]; [reflexivity|].
  change (np_diff (a :: b :: l)) with ((b - a)%Z :: np_diff (b :: l)).
  change (get 0%Z ((b - a)%Z :: np_diff (b :: l)) (S i)) with (get 0%Z (np_diff (b :: l)) i). rewrite IH by (cbn in *; lia). reflexivity.
Qed.
Lemma In_bool_index {A} (d : A) l : forall keep r, bool_index l keep = Ok r ->
  forall x, In x r <-> exists i, i < length l /\ get d l i = x /\ get false keep i = true.
Proof.
  intros keep r. unfold bool_index. destruct (Nat.eqb_spec (length l) (length keep)) as [E|]; [|discriminate]. intros H. injection H as <-.
  revert keep E. induction l as [|a l IH]; intros [|b keep] E x; try discriminate.
  - split; [intros []|intros (i & H & _); cbn in H; lia].
  - cbn [combine filter snd]. assert (IH' := IH keep (eq_add_S _ _ E) x). destruct b; cbn [map fst In]; rewrite IH'.
    + split.
      * intros [<-|(i & H1 & H2 & H3)]; [exists 0; cbn; split; [lia|auto]|exists (S i); cbn; split; [lia|auto]].
      * intros ([|i] & H1 & H2 & H3); [left; auto|right; exists i; cbn in *; split; [lia|auto]].
    + split.
      * intros (i & H1 & H2 & H3). exists (S i). cbn. split; [lia|auto].
      * intros ([|i] & H1 & H2 & H3); [discriminate|exists i; cbn in *; split; [lia|auto]].
Qed.
Lemma gap_time_nil : gap_time [] = Err IndexError.
Proof. reflexivity. Qed.
Lemma gap_time_ok times : times <> [] -> increasing times -> exists r, gap_time times = Ok r /\
  forall t, In t r <-> exists i, i + 1 < length times /\ get 0%Z times i = t /\ (t + hour <= get 0%Z times (i + 1))%Z.
Proof.
  intros N I. assert (LT : 1 <= length times) by (destruct times; [congruence|cbn; lia]).
  assert (LV : length (very_close_gaps times) = length times - 1) by (unfold very_close_gaps; rewrite map_length, diff_length; auto).
  assert (LK : length (map negb (very_close_gaps times ++ [true])) = length times) by (rewrite map_length, app_length, LV; cbn; lia).
  assert (EX : exists r, gap_time times = Ok r). { unfold gap_time, bool_index. rewrite LK, Nat.eqb_refl. eauto. }
  destruct EX as [r E]. exists r. split; auto. intros t. unfold gap_time in E. rewrite (In_bool_index 0%Z _ _ _ E).
  assert (K : forall i, i < length times -> (get false (map negb (very_close_gaps times ++ [true])) i = true <->
    i + 1 < length times /\ (get 0%Z times i + hour <= get 0%Z times (i + 1))%Z)).
  { intros i Hi. rewrite (get_map negb false) by (rewrite app_length, LV; cbn; lia). destruct (Nat.eq_dec (i + 1) (length times)) as [e|ne].
    - unfold get at 1. rewrite app_nth2 by lia. replace (i - length (very_close_gaps times)) with 0 by lia. cbn. split; [discriminate|lia].
    - unfold get at 1. rewrite app_nth1 by lia. fold (get false (very_close_gaps times) i). unfold very_close_gaps.
      rewrite (get_map (fun d => Z.ltb (Z.quot d 60000000000) 60) 0%Z) by (rewrite diff_length; lia). rewrite diff_get by lia.
      assert (P : (get 0 times i < get 0 times (i + 1))%Z) by (apply I; lia).
      rewrite negb_true_iff, Z.ltb_ge. rewrite Z.quot_div_nonneg by lia. unfold hour. split.
      + intros H. split; [lia|]. pose proof (Z.mul_div_le (get 0 times (i + 1) - get 0 times i) 60000000000 ltac:(lia))%Z. lia.
      + intros [_ H]. apply Z.div_le_lower_bound; lia. }
  split.
  - intros (i & H1 & <- & H3). apply K in H3; auto. exists i. tauto.
  - intros (i & H1 & <- & H3). exists i. split; [lia|]. split; auto. apply K; [lia|]. auto.
Qed.
Lemma increasing_le times i j : increasing times -> i <= j -> j < length times -> (get 0 times i <= get 0 times j)%Z.
Proof. intros I H K. destruct (Nat.eq_dec i j) as [->|]; [lia|]. pose proof (I i j ltac:(lia)). lia. Qed.
(** in terms of the times *)
Lemma plotted_iff times r : increasing times -> gap_time times = Ok r ->
  forall t, In t r <-> In t times /\ ~ latest times t /\ ~ soon_before_another times t.
Proof.
  intros I E t. assert (N : times <> []) by (intros ->; discriminate E). destruct (gap_time_ok times N I) as (r' & E' & H). rewrite E in E'. injection E' as <-.
  rewrite H. split.
  - intros (i & H1 & H2 & H3). split; [subst t; apply get_In; lia|]. split.
    + intros [_ L]. specialize (L (get 0%Z times (i + 1)) (get_In 0%Z times _ H1)). unfold hour in H3. lia.
    + intros (s & Hs & Hb). apply In_get with (d := 0%Z) in Hs as (j & Hj & <-).
      destruct (le_lt_dec j i).
      * pose proof (increasing_le times j i I). lia.
      * pose proof (increasing_le times (i + 1) j I ltac:(lia) Hj). lia.
  - intros (Ht & NL & NS). apply In_get with (d := 0%Z) in Ht as (i & Hi & <-). assert (H1 : i + 1 < length times).
    { destruct (le_lt_dec (length times) (i + 1)); auto. exfalso. apply NL. split; [apply get_In; auto|].
      intros s Hs. apply In_get with (d := 0%Z) in Hs as (j & Hj & <-). apply increasing_le; auto; lia. }
    exists i. split; auto. split; auto. destruct (Z_le_gt_dec (get 0%Z times i + hour) (get 0%Z times (i + 1))) as [|G]; auto. exfalso. apply NS.
    exists (get 0%Z times (i + 1)). split; [apply get_In; auto|]. pose proof (I i (i + 1) ltac:(lia)). lia.
Qed.
