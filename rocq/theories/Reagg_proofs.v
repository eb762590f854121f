(** * Proofs about aggregating in two steps *)
From Coq Require Import List ZArith String Bool Lia Permutation Sorted Reals Lra.
From Verif Require Import Base Temporal_model Temporal_spec Temporal_proofs Reagg_spec RealStat.
Import ListNotations.
Local Open Scope Z_scope.
Local Notation concat := List.concat.

Section Lists.
Context {A : Type}.
Lemma filter_split (p q : A -> bool) df : (forall x, In x df -> p x = true -> q x = true -> False) ->
  Permutation (filter (fun x => p x || q x) df) (filter p df ++ filter q df).
Proof.
  induction df as [|x df IH]; intros U; cbn [filter]; [constructor|].
  assert (IH' := IH (fun y Hy => U y (or_intror Hy))).
  destruct (p x) eqn:P, (q x) eqn:Q; cbn [orb].
  - exfalso. exact (U x (or_introl eq_refl) P Q).
  - cbn [app]. constructor. exact IH'.
  - apply Permutation_trans with (x :: filter p df ++ filter q df); [constructor; exact IH'|]. apply Permutation_middle.
  - exact IH'.
Qed.
Lemma filter_groups (q : Z -> A -> bool) df ms : NoDup ms ->
  (forall x m m', In x df -> q m x = true -> q m' x = true -> m = m') ->
  Permutation (filter (fun x => existsb (fun m => q m x) ms) df) (concat (map (fun m => filter (q m) df) ms)).
Proof.
  intros ND U. induction ms as [|m ms IH]; cbn [map concat existsb].
  - induction df as [|x df IHd]; [constructor|]. cbn [filter]. apply IHd. intros y; intros. eapply U; eauto. right; auto.
  - inversion ND as [|? ? Hm ND']; subst.
    apply Permutation_trans with (filter (q m) df ++ filter (fun x => existsb (fun m => q m x) ms) df).
    + apply filter_split. intros x Hx E1 E2. apply existsb_exists in E2. destruct E2 as (m' & Hm' & E2).
      assert (m = m') by (eapply U; eauto). subst m'. contradiction.
    + apply Permutation_app_head. exact (IH ND').
Qed.
End Lists.

Lemma greatest_at_or_before l t c : In c l -> c <= t -> exists n, In n l /\ n <= t /\ forall m, In m l -> m <= t -> m <= n.
Proof.
  revert c. induction l as [|x l IH]; intros c Hc Ht; [destruct Hc|].
  destruct (List.Exists_dec (fun y => y <= t) l (fun y => Z_le_dec y t)) as [X|X].
  - apply Exists_exists in X. destruct X as (y & Y1 & Y2). destruct (IH y Y1 Y2) as (n & N1 & N2 & N3).
    destruct (Z_le_gt_dec x n).
    + exists n. split; [right; auto|]. split; auto. intros m [<-|Hm]; auto.
    + destruct (Z_le_gt_dec x t).
      * exists x. split; [left; auto|]. split; auto. intros m [<-|Hm] Hle; [lia|]. specialize (N3 m Hm Hle). lia.
      * exists n. split; [right; auto|]. split; auto. intros m [<-|Hm] Hle; [lia|auto].
  - assert (N : forall y, In y l -> ~ y <= t) by (intros y Hy Hle; apply X, Exists_exists; eauto).
    destruct Hc as [->|Hc]; [|exfalso; exact (N c Hc Ht)]. exists c. split; [left; auto|]. split; auto.
    intros m [<-|Hm] Hle; [lia|]. exfalso. exact (N m Hm Hle).
Qed.
Lemma least_at_or_after l t c : In c l -> t <= c -> exists n, In n l /\ t <= n /\ forall m, In m l -> t <= m -> n <= m.
Proof.
  intros Hc Ht. destruct (greatest_at_or_before (map Z.opp l) (- t) (- c)) as (n & N1 & N2 & N3); [apply in_map; auto|lia|].
  apply in_map_iff in N1. destruct N1 as (n' & <- & N1). exists n'. split; auto. split; [lia|]. intros m Hm Hle.
  specialize (N3 (- m) (in_map _ _ _ Hm)). lia.
Qed.

Lemma label_props label new a b t n : label_of label new a b t n -> a <= t <= b /\ a <= n <= b /\ In n new.
Proof. intros [[_ (H1 & H2 & H3 & _)]|[_ (H1 & H2 & H3 & _)]]; auto. Qed.

Lemma Forall2_map_same {A B C} (P : B -> C -> Prop) (g : A -> B) (h : A -> C) l : (forall x, In x l -> P (g x) (h x)) -> Forall2 P (map g l) (map h l).
Proof. induction l; intros H; constructor; [apply H; left; auto|apply IHl; intros; apply H; right; auto]. Qed.
Section Two.
Context {V : Type} (f : list V -> V) (df : list (Z * V)) (fine coarse : list Z) (label : string) (o : Z).
Hypothesis Hd : df <> [].
Hypothesis HSf : increasing fine.
Hypothesis HSc : increasing coarse.
Hypothesis Hsub : forall c, In c coarse -> In c fine.
Hypothesis HL : label = "right"%string \/ label = "left"%string.
Hypothesis HR : reaches label (map fst df) coarse.
Variables a1 b1 a b : Z.
Hypothesis HC1 : common_period (map fst df) fine a1 b1.
Hypothesis HC : common_period (map fst df) coarse a b.
Hypothesis HG : no_gap label (map fst df) fine a1 b1.
Hypothesis HN : exists n, In n fine /\ a1 <= n <= b1.

Lemma two_steps_rows : exists g1 g2 g,
  aggregate_df_onto_DatetimeIndex true df (Aware fine) f label o = Ok g1 /\
  aggregate_df_onto_DatetimeIndex true g1 (Aware coarse) f label o = Ok g2 /\
  aggregate_df_onto_DatetimeIndex true df (Aware coarse) f label o = Ok g /\ Forall2 (same_row f df (label_of label coarse a b)) g2 g.
Proof.
  destruct (aggregate_aware df fine f label o a1 b1 Hd HSf HC1 HL) as (ls1 & g1 & m1 & E1 & S1 & I1 & M1 & G1).
  destruct (aggregate_aware df coarse f label o a b Hd HSc HC HL) as (ls & g & m & E & S & I & M & G).
  assert (IN1 : forall n, In n ls1 <-> In n fine /\ a1 <= n <= b1).
  { intros n. rewrite I1. split.
    - intros (t & v & _ & H). apply label_props in H. tauto.
    - intros (H1 & H2). destruct (HG n H1 H2) as (t & Ht & H). apply in_map_iff in Ht. destruct Ht as ((t', v) & <- & Ht). eauto. }
  assert (F1 : map fst g1 = ls1).
  { rewrite G1, map_map. cbn [fst]. apply map_id. }
  assert (Hg1 : g1 <> []).
  { destruct HN as (n & Hn1 & Hn2). intros E0. rewrite E0 in F1. cbn in F1. assert (In n ls1) by (apply IN1; auto). rewrite <- F1 in H. exact H. }
  assert (Hc : coarse <> []). { destruct HR as (c & Hc & _). destruct coarse; [destruct Hc|discriminate]. }
  set (a2 := Z.max (z_min (map fst g1)) (z_min coarse)). set (b2 := Z.min (z_max (map fst g1)) (z_max coarse)).
  assert (Hg1' : map fst g1 <> []) by (destruct g1; [congruence|discriminate]).
  assert (HC2 : common_period (map fst g1) coarse a2 b2) by (apply common_period_model; auto).
  destruct (aggregate_aware g1 coarse f label o a2 b2 Hg1 HSc HC2 HL) as (ls2 & g2 & m2 & E2 & S2 & I2 & M2 & G2).
  (* the periods *)
  destruct HC1 as (d0 & d1 & f0 & f1 & (D0 & D1 & D) & (Fi0 & Fi1 & Fi) & -> & ->).
  destruct HC as (d0' & d1' & c0 & c1 & (D0' & D1' & D') & (C0 & C1 & C) & -> & ->).
  assert (d0' = d0) by (pose proof (D _ D0'); pose proof (D' _ D0); lia). subst d0'.
  assert (d1' = d1) by (pose proof (D _ D1'); pose proof (D' _ D1); lia). subst d1'. clear D0' D1' D'.
  destruct HC2 as (l0 & l1 & c0' & c1' & (L0 & L1 & L) & (C0' & C1' & C') & Ea2 & Eb2).
  assert (c0' = c0) by (pose proof (C _ C0'); pose proof (C' _ C0); lia). subst c0'.
  assert (c1' = c1) by (pose proof (C _ C1'); pose proof (C' _ C1); lia). subst c1'. clear C0' C1' C'.
  rewrite F1 in L0, L1, L. apply IN1 in L0. apply IN1 in L1. destruct L0 as [L0 L0']. destruct L1 as [L1 L1'].
  assert (Ff : f0 <= c0 /\ c1 <= f1) by (split; apply Fi; apply Hsub; auto).
  assert (LL : forall n, In n fine -> Z.max d0 f0 <= n <= Z.min d1 f1 -> l0 <= n <= l1) by (intros n H1 H2; apply L, IN1; auto).
  (* the label of a sample is the label of its fine label *)
  assert (KEY : forall t v c, In (t, v) df ->
    (label_of label coarse (Z.max d0 c0) (Z.min d1 c1) t c <->
     exists n, label_of label fine (Z.max d0 f0) (Z.min d1 f1) t n /\ label_of label coarse a2 b2 n c)).
  { intros t v c Ht. assert (Dt : d0 <= t <= d1) by (apply D; apply in_map_iff; exists (t, v); auto).
    destruct HR as (r & Hr1 & Hr2). pose proof (Hr2 _ D0) as R0. pose proof (Hr2 _ D1) as R1. pose proof (C r Hr1) as Rc.
    rewrite Ea2, Eb2. destruct HL as [HL0|HL0].
    - assert (r <= d0) by (apply R0; auto). split.
      + intros [[_ (H1 & H2 & H3 & H4 & H5)]|[K _]]; [|congruence].
        (* the least fine label at or after t *)
        pose proof (least_at_or_after fine t c (Hsub c H3) H4) as X.
        destruct X as (n & N1 & N2 & N3). assert (n <= c) by (apply N3; auto).
        pose proof (Fi n N1). assert (LLn := LL n N1 ltac:(lia)). assert (LLc := LL c (Hsub c H3) ltac:(lia)).
        exists n. split.
        * left. split; auto. repeat split; auto; lia.
        * left. split; auto. repeat split; auto; try lia. intros m' Hm Hle. apply H5; auto; lia.
      + intros (n & [[_ (H1 & H2 & H3 & H4 & H5)]|[K _]] & [[_ (K1 & K2 & K3 & K4 & K5)]|[K' _]]); try congruence.
        pose proof (C c K3). left. split; auto. repeat split; auto; lia.
    - assert (d1 <= r) by (apply R1; auto). split.
      + intros [[K _]|[_ (H1 & H2 & H3 & H4 & H5)]]; [congruence|].
        pose proof (greatest_at_or_before fine t c (Hsub c H3) H4) as X.
        destruct X as (n & N1 & N2 & N3). assert (c <= n) by (apply N3; auto).
        pose proof (Fi n N1). assert (LLn := LL n N1 ltac:(lia)). assert (LLc := LL c (Hsub c H3) ltac:(lia)).
        exists n. split.
        * right. split; auto. repeat split; auto; lia.
        * right. split; auto. repeat split; auto; try lia. intros m' Hm Hle. apply H5; auto; lia.
      + intros (n & [[K _]|[_ (H1 & H2 & H3 & H4 & H5)]] & [[K' _]|[_ (K1 & K2 & K3 & K4 & K5)]]); try congruence.
        pose proof (C c K3). right. split; auto. repeat split; auto; lia. }
  (* same labels *)
  assert (ELS : ls2 = ls).
  { apply increasing_ext; auto. intros c. rewrite I2, I. split.
    - intros (n & w & Hn & Hc'). assert (Hn' : In n ls1) by (rewrite <- F1; apply in_map_iff; exists (n, w); auto).
      apply I1 in Hn'. destruct Hn' as (t & v & Ht & Hl). exists t, v. split; auto. apply (KEY t v c Ht). eauto.
    - intros (t & v & Ht & Hc'). apply (KEY t v c Ht) in Hc'. destruct Hc' as (n & Hl & Hc').
      assert (Hn : In n ls1) by (apply I1; eauto). rewrite <- F1 in Hn. apply in_map_iff in Hn. destruct Hn as ((n', w) & <- & Hn). eauto. }
  exists g1, g2, g. split; [exact E1|]. split; [exact E2|]. split; [exact E|]. rewrite G2, G, ELS.
  apply Forall2_map_same. intros c Hc'. split; [reflexivity|].
  set (p := fun n => m2 c (n, f (map snd (filter (m1 n) df)))).
  assert (EG : map snd (filter (m2 c) g1) = map f (map (fun n => map snd (filter (m1 n) df)) (filter p ls1))).
  { rewrite G1. clear. unfold p. clear p. induction ls1 as [|n l IH]; [reflexivity|]. cbn [map filter].
    destruct (m2 c _); cbn [map snd]; [f_equal|]; exact IH. }
  assert (Hp : forall n, In n ls1 -> (p n = true <-> label_of label coarse a2 b2 n c)).
  { intros n Hn. unfold p. apply M2. rewrite G1. apply in_map_iff. exists n. auto. }
  exists (m c), (map (fun n => map snd (filter (m1 n) df)) (filter p ls1)). cbn [fst snd]. rewrite EG. split; [|split; [|split; [exact (M c)|split; [|split; reflexivity]]]].
  - rewrite <- ELS in Hc'. apply I2 in Hc'. destruct Hc' as (n & w & Hn & Hl).
    assert (Hn' : In n ls1) by (rewrite <- F1; apply in_map_iff; exists (n, w); auto).
    assert (In n (filter p ls1)) by (apply filter_In; split; auto; apply Hp; auto).
    destruct (filter p ls1); [destruct H|discriminate].
  - intros K. apply in_map_iff in K. destruct K as (n & K & Hn). apply filter_In in Hn. destruct Hn as [Hn _].
    apply I1 in Hn. destruct Hn as (t & v & Ht & Hl). apply (M1 n t v Ht) in Hl.
    apply map_eq_nil in K. assert (In (t, v) (filter (m1 n) df)) by (apply filter_In; auto). rewrite K in H. exact H.
  - replace (map (fun n => map snd (filter (m1 n) df)) (filter p ls1)) with (map (map snd) (map (fun n => filter (m1 n) df) (filter p ls1))) by apply map_map.
    rewrite <- concat_map. apply Permutation_map.
    apply Permutation_trans with (filter (fun x => existsb (fun n => m1 n x) (filter p ls1)) df).
    + replace (filter (fun x => existsb (fun n => m1 n x) (filter p ls1)) df) with (filter (m c) df); [apply Permutation_refl|].
      apply filter_ext_in. intros (t, v) Ht. apply eq_true_iff_eq. rewrite existsb_exists, (M c t v Ht), (KEY t v c Ht). split.
      * intros (n & Hl & Hc2). exists n. split; [|apply (M1 n t v Ht); auto]. apply filter_In. assert (In n ls1) by (apply I1; eauto).
        split; auto. apply Hp; auto.
      * intros (n & Hn & Hm). apply filter_In in Hn. destruct Hn as [Hn Hpn]. exists n. split; [apply (M1 n t v Ht); auto|apply Hp; auto].
    + apply filter_groups.
      * apply NoDup_filter, increasing_NoDup; auto.
      * intros (t, v) n n' Ht Q1 Q2. apply (M1 n t v Ht) in Q1. apply (M1 n' t v Ht) in Q2. eapply label_unique; eauto.
Qed.

Lemma two_steps : poolable f -> exists g1 g,
  aggregate_df_onto_DatetimeIndex true df (Aware fine) f label o = Ok g1 /\
  aggregate_df_onto_DatetimeIndex true g1 (Aware coarse) f label o = Ok g /\
  aggregate_df_onto_DatetimeIndex true df (Aware coarse) f label o = Ok g.
Proof.
  intros [Hf1 Hf2]. destruct two_steps_rows as (g1 & g2 & g & E1 & E2 & E & R). exists g1, g. split; [exact E1|]. split; [|exact E]. rewrite E2. f_equal. clear E2 E.
  induction R as [|[t v] [t' v'] l l' (Q1 & p & parts & P1 & P2 & _ & P3 & Q2 & Q3) R IH]; [reflexivity|]. f_equal; [|exact IH]. cbn [fst snd] in *. subst. f_equal.
  rewrite <- Hf2 by auto. symmetry. apply Hf1. exact P3.
Qed.
End Two.

(** sums and maxima of reals *)
Lemma rsum_app l l' : rsum (l ++ l') = (rsum l + rsum l')%R.
Proof. induction l as [|x l IH]; cbn [app]; rewrite ?rsum_cons; [cbn; lra|]. rewrite IH. lra. Qed.
Lemma rsum_poolable : poolable rsum.
Proof.
  split.
  - intros l l' H. induction H; rewrite ?rsum_cons in *; lra.
  - intros ls _ _. induction ls as [|l ls IH]; [reflexivity|]. cbn [concat map]. rewrite rsum_app, rsum_cons, IH. reflexivity.
Qed.

Lemma z_max_poolable : poolable z_max.
Proof.
  assert (E : forall l x, l <> [] -> In x l -> (forall t, In t l -> t <= x) -> z_max l = x).
  { intros l x Hl Hx Hm. destruct (z_max_spec l Hl) as [I1 I2]. specialize (Hm _ I1). specialize (I2 _ Hx). lia. }
  split.
  - intros l l' HP. destruct l as [|x l].
    + apply Permutation_nil in HP. subst. reflexivity.
    + destruct (z_max_spec (x :: l)) as [I1 I2]; [discriminate|]. symmetry. apply E.
      * intros ->. apply Permutation_sym, Permutation_nil in HP. discriminate.
      * eapply Permutation_in; eauto.
      * intros t Ht. apply I2. eapply Permutation_in; [apply Permutation_sym|]; eauto.
  - intros ls Hls Hn. assert (M : map z_max ls <> []) by (destruct ls; [congruence|discriminate]).
    destruct (z_max_spec _ M) as [I1 I2]. apply in_map_iff in I1. destruct I1 as (l & El & Hl). 
    assert (Hl0 : l <> []) by congruence. destruct (z_max_spec l Hl0) as [J1 J2].
    apply E.
    + intros K. assert (In (z_max l) (concat ls)) by (apply in_concat; eauto). rewrite K in H. exact H.
    + rewrite <- El. apply in_concat. eauto.
    + intros t Ht. apply in_concat in Ht. destruct Ht as (l' & Hl' & Ht). assert (Hl1 : l' <> []) by congruence.
      destruct (z_max_spec l' Hl1) as [_ K2]. specialize (K2 t Ht). specialize (I2 (z_max l') (in_map _ _ _ Hl')). lia.
Qed.
