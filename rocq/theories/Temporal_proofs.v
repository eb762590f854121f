(** * Proofs about the temporal aggregation *)
From Coq Require Import List ZArith Bool String Sorted Lia Reals Lra.
From Verif Require Import Base RealStat Temporal_model Temporal_spec.
Import ListNotations.
Local Open Scope Z_scope.

Lemma z_min_spec l : l <> [] -> In (z_min l) l /\ forall t, In t l -> z_min l <= t.
Proof.
  destruct l as [|x l]; [congruence|]. intros _. cbn [z_min]. revert x.
  induction l as [|a l IH]; intros x; cbn [fold_left].
  - split; [left; auto|]. intros t [<-|[]]; lia.
  - destruct (IH (Z.min x a)) as [I1 I2]. split.
    + destruct I1 as [I1|I1]; [|right; right; auto]. rewrite <- I1. destruct (Z.min_dec x a) as [->| ->]; [left|right; left]; auto.
    + pose proof (I2 _ (or_introl eq_refl)). intros t [<-|[<-|H']]; [lia|lia|apply I2; right; auto].
Qed.
Lemma z_max_spec l : l <> [] -> In (z_max l) l /\ forall t, In t l -> t <= z_max l.
Proof.
  destruct l as [|x l]; [congruence|]. intros _. cbn [z_max]. revert x.
  induction l as [|a l IH]; intros x; cbn [fold_left].
  - split; [left; auto|]. intros t [<-|[]]; lia.
  - destruct (IH (Z.max x a)) as [I1 I2]. split.
    + destruct I1 as [I1|I1]; [|right; right; auto]. rewrite <- I1. destruct (Z.max_dec x a) as [->| ->]; [left|right; left]; auto.
    + pose proof (I2 _ (or_introl eq_refl)). intros t [<-|[<-|H']]; [lia|lia|apply I2; right; auto].
Qed.

Lemma common_period_model l1 l2 : l1 <> [] -> l2 <> [] ->
  common_period l1 l2 (Z.max (z_min l1) (z_min l2)) (Z.min (z_max l1) (z_max l2)).
Proof.
  intros H1 H2. destruct (z_min_spec l1 H1), (z_max_spec l1 H1), (z_min_spec l2 H2), (z_max_spec l2 H2).
  exists (z_min l1), (z_max l1), (z_min l2), (z_max l2). repeat split; auto.
Qed.
Lemma first_last_unique l a b a' b' : first_last l a b -> first_last l a' b' -> a = a' /\ b = b'.
Proof. intros (I1 & I2 & H) (J1 & J2 & K). pose proof (H _ J1). pose proof (H _ J2). pose proof (K _ I1). pose proof (K _ I2). lia. Qed.
Lemma common_period_unique l1 l2 a b a' b' : common_period l1 l2 a b -> common_period l1 l2 a' b' -> a = a' /\ b = b'.
Proof.
  intros (a1 & b1 & a2 & b2 & F1 & F2 & -> & ->) (a1' & b1' & a2' & b2' & F1' & F2' & -> & ->).
  destruct (first_last_unique _ _ _ _ _ F1 F1'), (first_last_unique _ _ _ _ _ F2 F2'). subst. auto.
Qed.

(** ** groupby *)
Lemma z_insert_In k l x : In x (z_insert k l) <-> x = k \/ In x l.
Proof.
  induction l as [|a l IH]; simpl; [intuition|]. destruct (k <? a); simpl; [intuition|].
  destruct (Z.eqb_spec k a); simpl; [subst; intuition|]. rewrite IH. intuition.
Qed.
Lemma z_insert_sorted k l : increasing l -> increasing (z_insert k l).
Proof.
  unfold increasing. induction 1 as [|a l H IH F]; simpl; [repeat constructor|].
  destruct (Z.ltb_spec k a); [constructor; [constructor; auto|constructor; auto]|].
  - rewrite Forall_forall in *. intros x Hx. specialize (F x Hx). lia.
  - destruct (Z.eqb_spec k a); [constructor; auto|]. constructor; auto. rewrite Forall_forall in *. intros x Hx.
    apply z_insert_In in Hx. destruct Hx as [->|Hx]; [lia|auto].
Qed.
Lemma group_keys_sorted {V} (rows : list (option Z * V)) : increasing (group_keys rows).
Proof. induction rows as [|[[k|] v] rows IH]; simpl; auto; [constructor|apply z_insert_sorted; auto]. Qed.
Lemma group_keys_In {V} (rows : list (option Z * V)) k : In k (group_keys rows) <-> exists v, In (Some k, v) rows.
Proof.
  induction rows as [|[[k'|] v] rows IH]; simpl.
  - split; [intros []|intros (v & [])].
  - rewrite z_insert_In, IH. split.
    + intros [->|(v' & H)]; [exists v|exists v']; auto.
    + intros (v' & [E|H]); [left; congruence|right; eauto].
  - rewrite IH. split; intros (v' & H); exists v'; intuition congruence.
Qed.

(** ** the label found by reindexing *)
Definition pick (fill : bool) (l : list (Z * Z)) (t : Z) : option Z :=
  option_map snd (if fill then find (fun r => t <=? fst r) l else find (fun r => fst r <=? t) (rev l)).

Lemma find_first (l : list (Z * Z)) t r : StronglySorted (fun a b => fst a < fst b) l ->
  find (fun r => t <=? fst r) l = Some r <-> In r l /\ t <= fst r /\ forall r', In r' l -> t <= fst r' -> fst r <= fst r'.
Proof.
  induction 1 as [|x l H IH F]; simpl; [intuition discriminate|]. rewrite Forall_forall in F.
  destruct (Z.leb_spec t (fst x)).
  - split.
    + intros E. injection E as <-. split; auto. split; auto. intros r' [<-|Hr'] _; [lia|]. specialize (F r' Hr'). lia.
    + intros ([->|Hr] & Ht & Hm); auto. specialize (F r Hr). specialize (Hm x (or_introl eq_refl) H0). lia.
  - rewrite IH. split.
    + intros (Hr & Ht & Hm). split; auto. split; auto. intros r' [<-|Hr'] Ht'; [lia|auto].
    + intros ([->|Hr] & Ht & Hm); [lia|]. split; auto.
Qed.
Lemma find_last (l : list (Z * Z)) t r : StronglySorted (fun a b => fst a < fst b) l ->
  find (fun r => fst r <=? t) (rev l) = Some r <-> In r l /\ fst r <= t /\ forall r', In r' l -> fst r' <= t -> fst r' <= fst r.
Proof.
  assert (FA : forall (f : Z * Z -> bool) a b, find f (a ++ b) = match find f a with Some x => Some x | None => find f b end).
  { intros f a b. induction a as [|x a IH]; simpl; auto. destruct (f x); auto. }
  induction 1 as [|x l H IH F]; simpl; [intuition discriminate|]. rewrite Forall_forall in F. rewrite FA.
  destruct (find (fun r0 => fst r0 <=? t) (rev l)) as [y|] eqn:E.
  - assert (Hy : In y l /\ fst y <= t).
    { apply find_some in E. destruct E as [E1 E2]. apply in_rev in E1. apply Z.leb_le in E2. auto. }
    rewrite IH. split.
    + intros (Hr & Ht & Hm). split; auto. split; auto. intros r' [<-|Hr'] Ht'; auto. specialize (F r Hr). lia.
    + intros ([->|Hr] & Ht & Hm); [|split; auto].
      destruct Hy as [Hy1 Hy2]. specialize (F y Hy1). specialize (Hm y (or_intror Hy1) Hy2). lia.
  - assert (N : forall y, In y l -> ~ fst y <= t).
    { intros y Hy Hle. apply in_rev in Hy. pose proof (find_none _ _ E y Hy) as K. cbv beta in K. apply Z.leb_gt in K. lia. }
    simpl. destruct (Z.leb_spec (fst x) t).
    + split.
      * intros E'. injection E' as <-. split; auto. split; auto. intros r' [<-|Hr'] Ht'; [lia|]. exfalso. exact (N r' Hr' Ht').
      * intros ([->|Hr] & Ht & Hm); auto. exfalso. exact (N r Hr Ht).
    + split; [discriminate|]. intros ([->|Hr] & Ht & Hm); [lia|]. exfalso. exact (N r Hr Ht).
Qed.

Section Agg.
Context {V W : Type}.

(** the index with its "time" column, for an offset of the column *)
Definition with_time (o : Z) (l : list Z) : list (Z * Z) := map (fun t => (t, t + o)) l.
Lemma with_time_sorted o l : increasing l -> StronglySorted (fun a b : Z * Z => fst a < fst b) (with_time o l).
Proof.
  induction 1 as [|x l H IH F]; simpl; constructor; auto. rewrite Forall_forall in *. intros y Hy.
  apply in_map_iff in Hy. destruct Hy as (z & <- & Hz). simpl. auto.
Qed.
Lemma filter_sorted {A} (R : A -> A -> Prop) f l : StronglySorted R l -> StronglySorted R (filter f l).
Proof.
  induction 1 as [|x l H IH F]; simpl; [constructor|]. destruct (f x); auto. constructor; auto.
  rewrite Forall_forall in *. intros y Hy. apply filter_In in Hy. apply F; tauto.
Qed.

Lemma pick_spec o new a b t n label fill : increasing new ->
  (label = "right"%string /\ fill = true) \/ (label = "left"%string /\ fill = false) ->
  a <= t <= b ->
  (pick fill (filter (fun r => within a b (fst r)) (with_time o new)) t = Some (n + o) <-> label_of label new a b t n).
Proof.
  intros HS HL Ht.
  assert (SS : StronglySorted (fun a b : Z * Z => fst a < fst b) (filter (fun r => within a b (fst r)) (with_time o new)))
    by (apply filter_sorted, with_time_sorted; auto).
  assert (IN : forall r, In r (filter (fun r => within a b (fst r)) (with_time o new)) <-> In (fst r) new /\ a <= fst r <= b /\ snd r = fst r + o).
  { intros [u v]. unfold with_time. rewrite filter_In, in_map_iff. unfold within. rewrite andb_true_iff, !Z.leb_le. cbn [fst snd]. split.
    - intros ((x & E & Hx) & Hb). injection E as <- <-. auto.
    - intros (Hx & Hb & ->). split; eauto. }
  unfold pick, label_of.
  destruct HL as [[-> ->]|[-> ->]].
  - split.
    + destruct (find _ _) as [r|] eqn:E; [|discriminate]. intros En. injection En as En.
      apply (find_first _ t r SS) in E. destruct E as (Hr & Hle & Hm). apply IN in Hr. destruct Hr as (H1 & H2 & H3).
      left. split; auto. assert (fst r = n) by lia. subst n. repeat split; try lia; auto.
      intros m Hm1 Hm2. destruct (Z_le_gt_dec m b); [|lia].
      apply (Hm (m, m + o)); [apply IN; cbn; repeat split; auto; lia|auto].
    + intros [[_ (H1 & H2 & H3 & H4 & H5)]|[? _]]; [|discriminate].
      assert (E : find (fun r => t <=? fst r) (filter (fun r => within a b (fst r)) (with_time o new)) = Some (n, n + o)).
      { apply find_first; auto. split; [apply IN; auto|]. split; auto. intros r' Hr' Hle. apply IN in Hr'. apply H5; tauto. }
      rewrite E. reflexivity.
  - split.
    + destruct (find _ _) as [r|] eqn:E; [|discriminate]. intros En. injection En as En.
      apply (find_last _ t r SS) in E. destruct E as (Hr & Hle & Hm). apply IN in Hr. destruct Hr as (H1 & H2 & H3).
      right. split; auto. assert (fst r = n) by lia. subst n. repeat split; try lia; auto.
      intros m Hm1 Hm2. destruct (Z_le_gt_dec a m); [|lia].
      apply (Hm (m, m + o)); [apply IN; cbn; repeat split; auto; lia|auto].
    + intros [[? _]|[_ (H1 & H2 & H3 & H4 & H5)]]; [discriminate|].
      assert (E : find (fun r => fst r <=? t) (rev (filter (fun r => within a b (fst r)) (with_time o new))) = Some (n, n + o)).
      { apply find_last; auto. split; [apply IN; auto|]. split; auto. intros r' Hr' Hle. apply IN in Hr'. apply H5; tauto. }
      rewrite E. reflexivity.
Qed.

(** ** the whole function *)
Definition index_of (o : Z) (aware : bool) (new : list Z) : dt_index := if aware then Aware new else Naive (map (fun t => t + o) new).

Lemma aggregate_general o (aware : bool) (df : list (Z * V)) (new : list Z) (method : list V -> W) label :
  df <> [] -> new <> [] -> increasing new -> label = "right"%string \/ label = "left"%string ->
  exists a b ls (g : list (Z * W)), common_period (map fst df) new a b /\
  let off := if aware then 0 else o in
  aggregate_df_onto_DatetimeIndex true df (index_of o aware new) method label o = Ok g /\
  increasing ls /\
  (forall n, In n ls <-> exists t v, In (t, v) df /\ label_of label new a b t n) /\
  exists member : Z -> Z * V -> bool, (forall n t v, In (t, v) df -> (member n (t, v) = true <-> label_of label new a b t n)) /\
  g = map (fun n => (n + off, method (map snd (filter (member n) df)))) ls.
Proof.
  intros Hd Hn HS HL.
  set (off := if aware then 0 else o).
  assert (EN : match index_of o aware new with
               | Aware l => map (fun t => (t, t)) l | Naive l => map (fun c => (c - o, c)) l end = with_time off new).
  { unfold index_of, with_time, off. destruct aware.
    - apply map_ext. intros t. f_equal. lia.
    - rewrite map_map. apply map_ext. intros t. f_equal. lia. }
  assert (EF : map fst (with_time off new) = new).
  { unfold with_time. rewrite map_map. cbn. apply map_id. }
  set (fill := (label =? "right")%string).
  assert (HF : (label = "right"%string /\ fill = true) \/ (label = "left"%string /\ fill = false)).
  { unfold fill. destruct HL as [-> | ->]; [left|right]; auto. }
  assert (E0 : (if (label =? "right")%string then Ok true else if (label =? "left")%string then Ok false else Err NotImplementedError) = Ok fill).
  { unfold fill. destruct HL as [-> | ->]; auto. }
  set (a := Z.max (z_min (map fst df)) (z_min new)). set (b := Z.min (z_max (map fst df)) (z_max new)).
  set (nt := filter (fun r => within a b (fst r)) (with_time off new)).
  set (dc := filter (fun r : Z * V => within a b (fst r)) df).
  set (rows := map (fun r : Z * V => (pick fill nt (fst r), snd r)) dc).
  assert (EM : aggregate_df_onto_DatetimeIndex true df (index_of o aware new) method label o = Ok (groupby_agg method rows)).
  { unfold aggregate_df_onto_DatetimeIndex. rewrite E0. cbn [bind]. rewrite EN, EF. reflexivity. }
  assert (DC : forall t v, In (t, v) dc <-> In (t, v) df /\ a <= t <= b).
  { intros t v. unfold dc. rewrite filter_In. cbn [fst]. unfold within. rewrite andb_true_iff, !Z.leb_le. tauto. }
  assert (LP : forall n t, label_of label new a b t n -> a <= t <= b).
  { intros n t [[_ H]|[_ H]]; apply H. }
  assert (PK : forall t n, a <= t <= b -> (pick fill nt t = Some (n + off) <-> label_of label new a b t n)).
  { intros t n Ht. apply pick_spec; auto. }
  exists a, b, (map (fun k => k - off) (group_keys rows)), (groupby_agg method rows).
  split; [apply common_period_model; auto; destruct df; [congruence|discriminate]|].
  split; [exact EM|].
  assert (GK : forall k, In k (group_keys rows) <-> exists t v, In (t, v) df /\ label_of label new a b t (k - off)).
  { intros k. rewrite group_keys_In. unfold rows. split.
    - intros (v & H). apply in_map_iff in H. destruct H as ((t & v') & E & Hin). cbn [fst snd] in E. injection E as E ->.
      apply DC in Hin. destruct Hin as [H1 H2]. exists t, v. split; auto. apply PK; auto. rewrite E. f_equal. lia.
    - intros (t & v & Hin & Hl). exists v. apply in_map_iff. exists (t, v). cbn [fst snd]. pose proof (LP _ _ Hl) as Ht.
      split; [|apply DC; auto]. apply PK in Hl; auto. rewrite Hl. f_equal. f_equal. lia. }
  split.
  { pose proof (group_keys_sorted rows) as GS. clear - GS. unfold increasing in *. induction GS as [|x l H IH F]; simpl; constructor; auto.
    rewrite Forall_forall in *. intros y Hy. apply in_map_iff in Hy. destruct Hy as (z & <- & Hz). specialize (F z Hz). lia. }
  split.
  { intros n. rewrite in_map_iff. split.
    - intros (k & <- & Hk). apply GK in Hk. auto.
    - intros H. exists (n + off). split; [lia|]. apply GK. replace (n + off - off) with n by lia. auto. }
  exists (fun n r => within a b (fst r) && match pick fill nt (fst r) with Some k => n + off =? k | None => false end). split.
  - intros n t v Hin. cbn [fst]. unfold within. rewrite !andb_true_iff, !Z.leb_le. split.
    + intros (Ht & H). apply PK; auto. destruct (pick fill nt t) as [k|]; [|discriminate]. apply Z.eqb_eq in H. congruence.
    + intros H. pose proof (LP _ _ H). split; auto. apply PK in H; auto. rewrite H. apply Z.eqb_refl.
  - unfold groupby_agg. rewrite map_map. apply map_ext. intros k. f_equal; [lia|]. f_equal.
    unfold rows. replace (k - off + off) with k by lia. unfold dc. clear.
    clearbody nt a b. induction df as [|r l IH]; [reflexivity|]. cbn [filter].
    destruct (within a b (fst r)) eqn:E; cbn [map filter andb]; [|exact IH].
    unfold has_key at 1. cbn [fst].
    destruct (pick fill nt (fst r)) as [k'|]; [|exact IH]. destruct (k =? k'); cbn [map snd]; [f_equal|]; exact IH.
Qed.
End Agg.

Lemma label_unique label new a b t n m : label_of label new a b t n -> label_of label new a b t m -> n = m.
Proof.
  intros [[-> (H1 & H2 & H3 & H4 & H5)]|[-> (H1 & H2 & H3 & H4 & H5)]] [[E (K1 & K2 & K3 & K4 & K5)]|[E (K1 & K2 & K3 & K4 & K5)]]; try discriminate;
    specialize (H5 m K3 K4); specialize (K5 n H3 H4); lia.
Qed.
Lemma increasing_ext l1 l2 : increasing l1 -> increasing l2 -> (forall x, In x l1 <-> In x l2) -> l1 = l2.
Proof.
  unfold increasing. intros H. revert l2. induction H as [|x l1 H IH F]; intros l2 H2 E.
  - destruct l2 as [|y l2]; auto. exfalso. apply (E y). left; auto.
  - destruct H2 as [|y l2 H2 F2]; [exfalso; apply (E x); left; auto|]. rewrite Forall_forall in F, F2.
    assert (x = y).
    { destruct (proj1 (E x) (or_introl eq_refl)) as [|A]; auto. destruct (proj2 (E y) (or_introl eq_refl)) as [|B]; auto.
      specialize (F y B). specialize (F2 x A). lia. }
    subst y. f_equal. apply IH; auto. intros z. specialize (E z). simpl in E.
    split; intros Hz.
    + destruct (proj1 E (or_intror Hz)) as [->|]; auto. specialize (F z Hz). lia.
    + destruct (proj2 E (or_intror Hz)) as [->|]; auto. specialize (F2 z Hz). lia.
Qed.

Lemma aggregate_aware {V W} (df : list (Z * V)) (new : list Z) (method : list V -> W) label o a b :
  df <> [] -> increasing new -> common_period (map fst df) new a b -> label = "right"%string \/ label = "left"%string ->
  exists ls g (member : Z -> Z * V -> bool),
  aggregate_df_onto_DatetimeIndex true df (Aware new) method label o = Ok g /\
  increasing ls /\
  (forall n, In n ls <-> exists t v, In (t, v) df /\ label_of label new a b t n) /\
  (forall n t v, In (t, v) df -> (member n (t, v) = true <-> label_of label new a b t n)) /\
  g = map (fun n => (n, method (map snd (filter (member n) df)))) ls.
Proof.
  intros Hd HS HC HL.
  assert (Hn : new <> []). { destruct HC as (? & ? & ? & ? & _ & (I & _) & _). intros ->. destruct I. }
  destruct (aggregate_general o true df new method label Hd Hn HS HL) as (a' & b' & ls & g & HC' & E & H1 & H2 & member & H3 & H4).
  destruct (common_period_unique _ _ _ _ _ _ HC HC') as [-> ->].
  exists ls, g, member. split; [exact E|]. split; auto. split; auto. split; auto.
  rewrite H4. apply map_ext. intros n. f_equal. lia.
Qed.

Lemma aggregate_naive_shift {V W} (df : list (Z * V)) (clock : list Z) (method : list V -> W) label o :
  df <> [] -> clock <> [] -> increasing clock -> label = "right"%string \/ label = "left"%string ->
  exists g, aggregate_df_onto_DatetimeIndex true df (Aware (map (fun c => c - o) clock)) method label o = Ok g /\
  aggregate_df_onto_DatetimeIndex true df (Naive clock) method label o = Ok (map (fun r => (fst r + o, snd r)) g).
Proof.
  intros Hd Hn HS HL. set (new := map (fun c => c - o) clock).
  assert (Hn' : new <> []) by (destruct clock; [congruence|discriminate]).
  assert (HS' : increasing new).
  { unfold new, increasing in *. clear - HS. induction HS as [|x l H IH F]; simpl; constructor; auto.
    rewrite Forall_forall in *. intros y Hy. apply in_map_iff in Hy. destruct Hy as (z & <- & Hz). specialize (F z Hz). lia. }
  assert (EN : Naive clock = index_of o false new).
  { unfold index_of, new. rewrite map_map. f_equal. rewrite <- (map_id clock) at 1. apply map_ext. intros; lia. }
  destruct (aggregate_general o true df new method label Hd Hn' HS' HL) as (a & b & ls & g & HC & E & H1 & H2 & member & H3 & H4).
  destruct (aggregate_general o false df new method label Hd Hn' HS' HL) as (a' & b' & ls' & g' & HC' & E' & H1' & H2' & member' & H3' & H4').
  destruct (common_period_unique _ _ _ _ _ _ HC HC') as [<- <-].
  exists g. split; [exact E|]. rewrite EN, E'. f_equal. rewrite H4, H4', map_map. cbn [fst snd].
  assert (ls' = ls) as -> by (apply increasing_ext; auto; intros x; rewrite H2, H2'; tauto).
  apply map_ext. intros n. f_equal; [lia|]. f_equal. f_equal. apply filter_ext_in. intros [t v] Hin.
  apply eq_true_iff_eq. rewrite H3, H3' by auto. tauto.
Qed.

Lemma aggregate_rejects {V W} (df : list (Z * V)) new (method : list V -> W) label o b :
  (label <> "right"%string -> label <> "left"%string -> aggregate_df_onto_DatetimeIndex b df new method label o = Err NotImplementedError) /\
  (label = "right"%string \/ label = "left"%string -> aggregate_df_onto_DatetimeIndex false df new method label o = Err TypeError).
Proof.
  split.
  - intros H1 H2. unfold aggregate_df_onto_DatetimeIndex. apply String.eqb_neq in H1, H2. rewrite H1, H2. reflexivity.
  - intros [-> | ->]; reflexivity.
Qed.

(** ** conservation of sums *)
Lemma rsum_cons x l : rsum (x :: l) = (x + rsum l)%R.
Proof. reflexivity. Qed.
Lemma sum_over_groups (df : list (Z * R)) ls (member : Z -> Z * R -> bool) : NoDup ls ->
  (forall n m r, In r df -> member n r = true -> member m r = true -> n = m) ->
  rsum (map (fun n => rsum (map snd (filter (member n) df))) ls) =
  rsum (map snd (filter (fun r => existsb (fun n => member n r) ls) df)).
Proof.
  intros ND U. induction df as [|r df IH].
  - clear. cbn [filter map]. induction ls; cbn [map]; auto. rewrite rsum_cons, IHls. cbn. lra.
  - assert (E : rsum (map (fun n => rsum (map snd (filter (member n) (r :: df)))) ls) =
      ((if existsb (fun n => member n r) ls then snd r else 0) + rsum (map (fun n => rsum (map snd (filter (member n) df))) ls))%R).
    { assert (U' : forall n m, member n r = true -> member m r = true -> n = m) by (intros; eapply U; eauto; left; auto).
      clear IH U. induction ND as [|n ls Hn ND IH]; [cbn; lra|].
      cbn [map existsb]. rewrite !rsum_cons, IH. cbn [filter]. destruct (member n r) eqn:Em; cbn [orb map]; [|lra]. rewrite rsum_cons.
      assert (existsb (fun n0 => member n0 r) ls = false) as ->.
      { apply not_true_iff_false. intros H. apply existsb_exists in H. destruct H as (m & Hm & Hm'). specialize (U' _ _ Em Hm'). congruence. }
      lra. }
    rewrite E, IH; [|intros n m r' Hr'; apply U; right; auto].
    cbn [filter]. destruct (existsb (fun n => member n r) ls); cbn [map]; rewrite ?rsum_cons; lra.
Qed.

Lemma increasing_NoDup l : increasing l -> NoDup l.
Proof. induction 1 as [|x l H IH F]; constructor; auto. rewrite Forall_forall in F. intros Hx. specialize (F x Hx). lia. Qed.

Lemma aggregate_conserves (df : list (Z * R)) (new : list Z) label o a b :
  df <> [] -> increasing new -> common_period (map fst df) new a b -> label = "right"%string \/ label = "left"%string ->
  exists g (labelled : Z * R -> bool), aggregate_df_onto_DatetimeIndex true df (Aware new) rsum label o = Ok g /\
  (forall t v, In (t, v) df -> (labelled (t, v) = true <-> exists n, label_of label new a b t n)) /\
  rsum (map snd g) = rsum (map snd (filter labelled df)).
Proof.
  intros Hd HS HC HL.
  destruct (aggregate_aware df new rsum label o a b Hd HS HC HL) as (ls & g & member & E & H1 & H2 & H3 & H4).
  exists g, (fun r => existsb (fun n => member n r) ls). split; auto. split.
  - intros t v Hin. rewrite existsb_exists. split.
    + intros (n & _ & Hm). exists n. apply H3 in Hm; auto.
    + intros (n & Hl). exists n. split; [apply H2; eauto|apply H3; auto].
  - rewrite H4, map_map. cbn [snd]. apply sum_over_groups; [apply increasing_NoDup; auto|].
    intros n m [t v] Hin Hn Hm. apply H3 in Hn, Hm; auto. eapply label_unique; eauto.
Qed.
