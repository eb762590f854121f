(** * Proofs about GridValidator: resampling to the grid times *)
From Coq Require Import List ZArith Bool Lia Arith String.
From Verif Require Import Base Num NumList NpOps MinMax_model Validator_model Validator_spec.
Import ListNotations.
Local Open Scope nat_scope.
Local Notation length := List.length.

Lemma increasing_spec l : increasing l = true <-> ascending l.
Proof.
  unfold ascending. induction l as [|a [|b l] IH].
  - cbn. intuition lia.
  - cbn. intuition lia.
  - cbn [increasing]. rewrite andb_true_iff, IH, Z.ltb_lt. split.
    + intros [H1 H2] i j Hij. destruct i as [|i], j as [|j]; try lia.
      * change (a < get 0%Z (b :: l) j)%Z. destruct j; [exact H1|]. specialize (H2 0 (S j)). cbn [List.length] in *. change (get 0%Z (b :: l) 0) with b in H2. lia.
      * apply (H2 i j). cbn [List.length] in *. lia.
    + intros H. split; [apply (H 0 1); cbn; lia|]. intros i j Hij. apply (H (S i) (S j)). cbn [List.length] in *. lia.
Qed.
Lemma ascending_tail a l : ascending (a :: l) -> ascending l /\ forall x, In x l -> (a < x)%Z.
Proof.
  intros H. split.
  - intros i j Hij. apply (H (S i) (S j)). cbn. lia.
  - intros x Hx. apply (In_get 0%Z) in Hx as (i & Hi & <-). apply (H 0 (S i)). cbn. lia.
Qed.
Lemma filter_none {A} (p : A -> bool) l : (forall x, In x l -> p x = false) -> filter p l = [].
Proof. induction l as [|x l IH]; intros H; cbn; auto. rewrite (H x) by (left; auto). apply IH. intros y Hy. apply H. right; auto. Qed.
Lemma bfill_owner index grid t : ascending index -> length index = length grid -> bfill (combine index grid) t = owner_right index grid t.
Proof.
  unfold owner_right. revert grid. induction index as [|k index IH]; intros [|v grid] A L; cbn in L; try lia; auto. cbn [combine bfill filter].
  apply ascending_tail in A as [A1 A2]. destruct (Z.leb_spec t k), (Z.ltb_spec k t); try lia.
  - rewrite filter_none; [reflexivity|]. intros x Hx. specialize (A2 x Hx). apply Z.ltb_ge. lia.
  - cbn [List.length nth_error]. apply IH; auto.
Qed.
Lemma ffill_owner index grid t : ascending index -> length index = length grid -> ffill (combine index grid) t None = owner_left index grid t.
Proof.
  unfold owner_left. intros A L.
  assert (G : forall index grid last, ascending index -> length index = length grid ->
    ffill (combine index grid) t last = match length (filter (fun k => (k <=? t)%Z) index) with 0 => last | S i => nth_error grid i end).
  { clear. induction index as [|k index IH]; intros [|v grid] last A L; cbn in L; try lia; auto. cbn [combine ffill filter].
    apply ascending_tail in A as [A1 A2]. destruct (Z.leb_spec k t).
    - cbn [List.length]. rewrite IH by auto. destruct (length (filter (fun k => (k <=? t)%Z) index)); reflexivity.
    - rewrite filter_none; [reflexivity|]. intros x Hx. specialize (A2 x Hx). apply Z.leb_gt. lia. }
  apply G; auto.
Qed.
Lemma nth_error_get {A} (d : A) l i x : nth_error l i = Some x <-> i < length l /\ get d l i = x.
Proof.
  split.
  - intros E. assert (i < length l) by (apply nth_error_Some; congruence). split; auto. unfold get. apply nth_error_nth. auto.
  - intros [H E]. unfold get in E. rewrite (nth_error_nth' l d H). congruence.
Qed.
(** the owner function and the interval description agree *)
Theorem owner_right_spec index grid t k : ascending index -> length index = length grid ->
  (owner_right index grid t = Some k <-> exists i, belongs_right index t i /\ get 0%Z grid i = k).
Proof.
  intros A L. unfold owner_right. rewrite (nth_error_get 0%Z).
  assert (C : forall index, ascending index -> let c := length (filter (fun k => (k <? t)%Z) index) in
    forall i, belongs_right index t i <-> i = c /\ c < length index).
  { clear. induction index as [|a index IH]; intros A c i.
    - unfold belongs_right. cbn. lia.
    - apply ascending_tail in A as [A1 A2]. unfold c. cbn [filter]. destruct (Z.ltb_spec a t).
      + cbn [List.length]. specialize (IH A1). cbv zeta in IH. destruct i as [|i].
        * split; [|lia]. intros (_ & H1 & _). change (t <= a)%Z in H1. lia.
        * specialize (IH i). transitivity (belongs_right index t i); [|rewrite IH; lia]. unfold belongs_right. cbn [List.length]. split.
          -- intros (B1 & B2 & B3). split; [lia|]. split; [exact B2|]. intros j Hj. apply (B3 (S j)). lia.
          -- intros (B1 & B2 & B3). split; [lia|]. split; [exact B2|]. intros [|j] Hj; [exact H|]. apply (B3 j). lia.
      + rewrite filter_none by (intros x Hx; specialize (A2 x Hx); apply Z.ltb_ge; lia). cbn [List.length]. split.
        * intros (B1 & B2 & B3). destruct i; [lia|]. specialize (B3 0 ltac:(lia)). change (a < t)%Z in B3. lia.
        * intros [-> _]. split; [cbn; lia|]. split; [exact H|]. intros j Hj. lia. }
  specialize (C index A). cbv zeta in C. rewrite <- L. split.
  - intros [H1 H2]. eexists. split; [apply C; split; [reflexivity|exact H1]|exact H2].
  - intros (i & B & E). apply C in B as [-> B]. auto.
Qed.
Theorem owner_left_spec index grid t k : ascending index -> length index = length grid ->
  (owner_left index grid t = Some k <-> exists i, belongs_left index t i /\ get 0%Z grid i = k).
Proof.
  intros A L. unfold owner_left.
  assert (C : forall index, ascending index -> let c := length (filter (fun k => (k <=? t)%Z) index) in
    forall i, belongs_left index t i <-> S i = c).
  { clear. induction index as [|a index IH]; intros A c i.
    - unfold belongs_left. cbn. lia.
    - apply ascending_tail in A as [A1 A2]. unfold c. cbn [filter]. destruct (Z.leb_spec a t).
      + cbn [List.length]. specialize (IH A1). cbv zeta in IH. destruct i as [|i].
        * split.
          -- intros (_ & _ & B3). destruct index as [|b index]; [reflexivity|]. specialize (B3 1). cbn [List.length] in B3. change (1 <= 1) in B3 || idtac.
             assert (t < b)%Z by (apply B3; lia). rewrite filter_none; [reflexivity|]. intros x [<-|Hx]; apply Z.leb_gt; [lia|].
             destruct (ascending_tail _ _ A1) as [_ Q]. specialize (Q x Hx). lia.
          -- intros E. split; [cbn; lia|]. split; [exact H|]. intros [|j] Hj; [lia|]. change (t < get 0%Z index j)%Z.
             destruct (Z.lt_ge_cases t (get 0%Z index j)); auto. exfalso. assert (I : In (get 0%Z index j) (filter (fun k => (k <=? t)%Z) index)).
             { apply filter_In. split; [apply get_In; cbn [List.length] in Hj; lia|]. apply Z.leb_le. auto. }
             destruct (filter _ index); [destruct I|]. cbn in E. lia.
        * specialize (IH i). transitivity (belongs_left index t i); [|rewrite IH; lia]. unfold belongs_left. cbn [List.length]. split.
          -- intros (B1 & B2 & B3). split; [lia|]. split; [exact B2|]. intros j Hj. apply (B3 (S j)). lia.
          -- intros (B1 & B2 & B3). split; [lia|]. split; [exact B2|]. intros [|j] Hj; [lia|]. apply (B3 j). lia.
      + rewrite filter_none by (intros x Hx; specialize (A2 x Hx); apply Z.leb_gt; lia). cbn [List.length]. split; [|lia].
        intros (B1 & B2 & B3). destruct i as [|i]; [change (a <= t)%Z in B2; lia|]. change (get 0%Z index i <= t)%Z in B2. cbn [List.length] in B1.
        specialize (A2 (get 0%Z index i) ltac:(apply get_In; lia)). lia. }
  specialize (C index A). cbv zeta in C. set (c := length (filter (fun k => (k <=? t)%Z) index)) in *. destruct c as [|c'] eqn:Ec.
  - split; [discriminate|]. intros (i & B & _). apply C in B. lia.
  - rewrite (nth_error_get 0%Z). split.
    + intros [H1 H2]. exists c'. split; auto. apply C. reflexivity.
    + intros (i & B & E). pose proof B as (B1 & _). apply C in B. injection B as ->. split; auto. lia.
Qed.

(** ** groupby keys *)
Lemma insert_In x y l : In y (insert x l) <-> y = x \/ In y l.
Proof.
  induction l as [|z l IH]; cbn; [intuition|]. destruct (Z.eqb_spec x z) as [->|N]; [cbn; intuition|]. destruct (x <? z)%Z; cbn; rewrite ?IH; intuition.
Qed.
Lemma insert_ascending x l : ascending l -> ascending (insert x l).
Proof.
  assert (Cons : forall a l, ascending l -> (forall y, In y l -> (a < y)%Z) -> ascending (a :: l)).
  { intros a k A H i j Hij. destruct i as [|i], j as [|j]; try lia; cbn [List.length] in Hij.
    - change (a < get 0%Z k j)%Z. apply H. apply get_In. lia.
    - apply (A i j). lia. }
  induction l as [|z l IH]; intros A; cbn [insert].
  - apply Cons; auto. intros y [].
  - pose proof (ascending_tail _ _ A) as [A1 A2]. destruct (Z.eqb_spec x z); auto. destruct (Z.ltb_spec x z).
    + apply Cons; auto. intros y [<-|Hy]; auto. specialize (A2 y Hy). lia.
    + apply Cons; auto. intros y Hy. apply insert_In in Hy as [->|Hy]; [lia|auto].
Qed.
Lemma sort_unique_spec l : ascending (sort_unique l) /\ forall y, In y (sort_unique l) <-> In y l.
Proof.
  induction l as [|x l [A H]]; [split; [intros i j; cbn; lia|reflexivity]|]. cbn [sort_unique fold_right]. split; [apply insert_ascending; exact A|].
  intros y. rewrite insert_In. specialize (H y). unfold sort_unique in H. rewrite H. cbn. intuition.
Qed.

Section P.
Context {O : numops}.


Lemma resample_core (owner : Z -> option Z) (fill : Z -> option Z) (df : list (Z * O)) : (forall t, fill t = owner t) ->
  let keyed := map (fun p => (fill (fst p), snd p)) df in
  let keys := sort_unique (flat_map (fun p => match fst p with Some k => [k] | None => [] end) keyed) in
  let r := map (fun k => (k, nanmean (map snd (filter (fun p => match fst p with Some k' => (k' =? k)%Z | None => false end) keyed)))) keys in
  ascending (map fst r) /\ (forall k, In k (map fst r) <-> exists p, In p df /\ owner (fst p) = Some k) /\
  forall k m, In (k, m) r -> m = owned_mean owner df k.
Proof.
  intros F keyed keys r. destruct (sort_unique_spec (flat_map (fun p => match fst p with Some k => [k] | None => [] end) keyed)) as [A I].
  assert (E : map fst r = keys) by (unfold r; rewrite map_map; apply map_id). rewrite E. split; [exact A|]. split.
  - intros k. unfold keys. rewrite I, in_flat_map. unfold keyed. split.
    + intros (q & Hq & Hk). apply in_map_iff in Hq as (p & <- & Hp). cbn [fst] in Hk. rewrite F in Hk. exists p. split; auto. destruct (owner (fst p)) as [k'|]; [|destruct Hk]. destruct Hk as [-> |[]]. auto.
    + intros (p & Hp & Ho). exists (fill (fst p), snd p). split; [apply in_map_iff; eauto|]. cbn [fst]. rewrite F, Ho. left. auto.
  - intros k m H. unfold r in H. apply in_map_iff in H as (k' & E' & _). injection E' as -> <-. unfold nanmean, owned_mean. f_equal. f_equal.
    unfold keyed. clear - F. induction df as [|p df IH]; auto. cbn [map filter fst snd]. rewrite F. destruct (owner (fst p)) as [k'|]; auto. destruct (k' =? k)%Z; cbn [map snd]; rewrite IH; auto.
Qed.
Lemma index_eq (loc : option (Z -> Z)) (ws : list (Z * O)) : map (match loc with None => fun t => t | Some f => f end) (map fst ws) = index_of loc ws.
Proof. unfold index_of. rewrite map_map. apply map_ext. intros p. destruct loc; auto. Qed.

Theorem resample_right (ws df : list (Z * O)) loc : ascending (index_of loc ws) ->
  let owner := owner_right (index_of loc ws) (map fst ws) in
  exists r, resample_to_grid_time_series (Some ws) df "right" loc = Ok r /\ ascending (map fst r) /\
  (forall k, In k (map fst r) <-> exists p, In p df /\ owner (fst p) = Some k) /\ forall k m, In (k, m) r -> m = owned_mean owner df k.
Proof.
  intros A owner. unfold resample_to_grid_time_series. rewrite index_eq. cbn [String.eqb Ascii.eqb Bool.eqb bind].
  change ((("right" =? "right")%string)) with true. cbn [bind]. rewrite (proj2 (increasing_spec _) A). cbn [negb].
  eexists; split; [reflexivity|]. apply (resample_core owner). intros t. apply bfill_owner; auto. unfold index_of. rewrite !map_length. auto.
Qed.
Theorem resample_left (ws df : list (Z * O)) loc : ascending (index_of loc ws) ->
  let owner := owner_left (index_of loc ws) (map fst ws) in
  exists r, resample_to_grid_time_series (Some ws) df "left" loc = Ok r /\ ascending (map fst r) /\
  (forall k, In k (map fst r) <-> exists p, In p df /\ owner (fst p) = Some k) /\ forall k m, In (k, m) r -> m = owned_mean owner df k.
Proof.
  intros A owner. unfold resample_to_grid_time_series. rewrite index_eq.
  change ((("left" =? "right")%string)) with false. change ((("left" =? "left")%string)) with true. cbn [bind]. rewrite (proj2 (increasing_spec _) A). cbn [negb].
  eexists; split; [reflexivity|]. apply (resample_core owner (fun t => ffill (combine (index_of loc ws) (map fst ws)) t None)). intros t. apply ffill_owner; auto. unfold index_of. rewrite !map_length. auto.
Qed.
Theorem resample_rejects (ws df : list (Z * O)) label loc :
  resample_to_grid_time_series None df label loc = Err AttributeError /\
  (label <> "right"%string -> label <> "left"%string -> resample_to_grid_time_series (Some ws) df label loc = Err NotImplementedError).
Proof.
  split; auto. intros H1 H2. unfold resample_to_grid_time_series. destruct (String.eqb_spec label "right"); [congruence|]. destruct (String.eqb_spec label "left"); [congruence|]. reflexivity.
Qed.
End P.
