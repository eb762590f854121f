(** * Proofs about samples and storage of predictions *)
From Coq Require Import List ZArith Bool String Lia Arith.
From Verif Require Import Base Num NumList NpOps NearbyWetdry_model NearbyWetdry_proofs Mlp_proofs TfInfer_model TfInfer_spec.
Import ListNotations.
Local Open Scope nat_scope.
Local Notation length := List.length.

Section P.
Context {O : numops}.
Notation cell m t j := (nget (get [] m t) j).
Notation rec := (O * string * Z)%type.

(** ** first index *)
Lemma first_index_some ids c j : first_index ids c = Some j <-> j < length ids /\ get EmptyString ids j = c /\ forall j', j' < j -> get EmptyString ids j' <> c.
Proof.
  revert j. induction ids as [|x ids IH]; intros j; cbn; [split; [discriminate|lia]|].
  destruct (String.eqb_spec x c) as [->|N].
  - split; [intros [= <-]; split; [lia|split; [reflexivity|lia]]|]. intros (H1 & H2 & H3). destruct j; auto. exfalso. apply (H3 0); [lia|reflexivity].
  - destruct (first_index ids c) as [k|]; cbn.
    + split.
      * intros [= <-]. destruct (proj1 (IH k) eq_refl) as (H1 & H2 & H3). split; [lia|]. split; auto. intros [|j'] Hj; auto. apply H3. lia.
      * intros (H1 & H2 & H3). destruct j as [|j]; [contradiction|]. f_equal. f_equal. assert (E : Some k = Some j) by (apply IH; split; [lia|]; split; auto; intros j' Hj; apply (H3 (S j')); lia). congruence.
    + split; [discriminate|]. intros (H1 & H2 & H3). destruct j as [|j]; [contradiction|]. assert (E : None = Some j) by (apply IH; split; [lia|]; split; auto; intros j' Hj; apply (H3 (S j')); lia). discriminate.
Qed.
Lemma first_index_none ids c : first_index ids c = None <-> ~ In c ids.
Proof.
  split.
  - intros H Hin. induction ids as [|x ids IH]; [destruct Hin|]. cbn in H. destruct (String.eqb_spec x c); [discriminate|]. destruct (first_index ids c); [discriminate|]. destruct Hin; auto.
  - intros N. destruct (first_index ids c) as [j|] eqn:E; auto. apply first_index_some in E. exfalso. apply N. destruct E as (H & <- & _). apply get_In. auto.
Qed.
Lemma first_index_nodup ids j : NoDup ids -> j < length ids -> first_index ids (get EmptyString ids j) = Some j.
Proof.
  intros ND Hj. apply first_index_some. split; auto. split; auto. intros j' Hj' E.
  assert (j' = j); [|lia]. apply (proj1 (NoDup_nth ids EmptyString) ND); auto; lia.
Qed.

(** ** writing cells *)
Definition shape (n k : nat) (m : list (list O)) : Prop := length m = n /\ forall t, t < n -> length (get [] m t) = k.
Lemma upd2_shape n k t j v m : shape n k m -> shape n k (upd2 t j v m).
Proof.
  intros [L H]. split; [unfold upd2; rewrite upd_length; auto|]. intros t' Ht'. unfold upd2. destruct (Nat.eq_dec t' t) as [->|N].
  - rewrite get_upd_eq by lia. rewrite upd_length. auto.
  - rewrite get_upd_neq by auto. auto.
Qed.
Lemma upd2_cell n k t j v m t' j' : shape n k m -> t < n -> j < k -> cell (upd2 t j v m) t' j' = if (Nat.eqb t' t && Nat.eqb j' j)%bool then v else cell m t' j'.
Proof.
  intros [L H] Ht Hj. unfold upd2. destruct (Nat.eqb_spec t' t) as [->|N].
  - rewrite get_upd_eq by lia. cbn [andb]. unfold nget. destruct (Nat.eqb_spec j' j) as [->|N'].
    + apply get_upd_eq. rewrite H; auto.
    + rewrite get_upd_neq; auto.
  - rewrite get_upd_neq by auto. reflexivity.
Qed.

(** the value written last at [t] by a list of writes *)
Fixpoint lastw (ws : list (nat * O)) (t : nat) : option O :=
  match ws with
  | [] => None
  | (i, v) :: ws => match lastw ws t with Some u => Some u | None => if Nat.eqb i t then Some v else None end
  end.
Lemma writes_cell n k j ws m : shape n k m -> j < k -> Forall (fun w => fst w < n) ws ->
  shape n k (fold_left (fun m w => upd2 (fst w) j (snd w) m) ws m) /\
  forall t j', cell (fold_left (fun m w => upd2 (fst w) j (snd w) m) ws m) t j' =
    if Nat.eqb j' j then match lastw ws t with Some v => v | None => cell m t j' end else cell m t j'.
Proof.
  intros Hs Hj HW. revert m Hs. induction HW as [|[i v] ws Hi HW IH]; intros m Hs; cbn [fold_left].
  - split; auto. intros t j'. cbn. destruct (Nat.eqb j' j); auto.
  - destruct (IH (upd2 i j v m)) as [S1 H1]; [apply upd2_shape; auto|]. cbn [fst snd]. split; auto. intros t j'. rewrite H1. cbn [lastw].
    rewrite (upd2_cell n k); auto. destruct (Nat.eqb_spec j' j) as [->|N].
    + destruct (lastw ws t); auto. rewrite (Nat.eqb_sym t i). destruct (Nat.eqb i t); auto.
    + rewrite andb_false_r. reflexivity.
Qed.

(** ** one link *)
Definition hits (n : nat) (c : string) (t : nat) (r : rec) : Prop := snd (fst r) = c /\ (snd r = Z.of_nat t \/ snd r = Z.of_nat t - Z.of_nat n)%Z.
Lemma np_index_spec n i t : np_index n i = Some t <-> t < n /\ (i = Z.of_nat t \/ i = Z.of_nat t - Z.of_nat n)%Z.
Proof.
  unfold np_index. destruct (Z.leb_spec 0 i), (Z.ltb_spec i (Z.of_nat n)), (Z.leb_spec (- Z.of_nat n) i), (Z.ltb_spec i 0); cbn [andb]; split;
    try (intros [= <-]); try discriminate; intros; try lia; f_equal; lia.
Qed.
Lemma np_index_none n i : (i < Z.of_nat n)%Z -> (np_index n i = None <-> (i < - Z.of_nat n)%Z).
Proof. intros H. unfold np_index. destruct (Z.leb_spec 0 i), (Z.ltb_spec i (Z.of_nat n)), (Z.leb_spec (- Z.of_nat n) i), (Z.ltb_spec i 0); cbn [andb]; split; try discriminate; auto; lia. Qed.

Definition writes (n : nat) (c : string) (recs : list rec) : list (nat * O) :=
  flat_map (fun r => if (snd (fst r) =? c)%string then match np_index n (snd r) with Some t => [(t, fst (fst r))] | None => [] end else []) recs.

Lemma writes_ok n c recs : (forall r, In r recs -> snd (fst r) = c -> - Z.of_nat n <= snd r)%Z ->
  mapM (fun r : rec => match np_index n (snd r) with Some t => Ok (t, fst (fst r)) | None => Err IndexError end)
    (filter (fun r => (snd r <? Z.of_nat n)%Z) (filter (fun r => (snd (fst r) =? c)%string) recs)) = Ok (writes n c recs).
Proof.
  intros H. unfold writes. induction recs as [|r recs IH]; auto. cbn [filter flat_map].
  assert (IH' := IH (fun r' Hr => H r' (or_intror Hr))). clear IH.
  destruct (String.eqb_spec (snd (fst r)) c) as [E|N]; [|exact IH']. cbn [filter].
  pose proof (H r (or_introl eq_refl) E) as Hlo. destruct (Z.ltb_spec (snd r) (Z.of_nat n)) as [Hlt|Hge].
  - cbn [mapM]. destruct (np_index n (snd r)) as [t|] eqn:Ei.
    + cbn [bind]. rewrite IH'. reflexivity.
    + apply np_index_none in Ei; auto. lia.
  - assert (Ei : np_index n (snd r) = None). { destruct (np_index n (snd r)) eqn:Ei; auto. apply np_index_spec in Ei. lia. }
    rewrite Ei. exact IH'.
Qed.
Lemma writes_bad n c recs r : In r recs -> snd (fst r) = c -> (snd r < - Z.of_nat n)%Z ->
  mapM (fun r : rec => match np_index n (snd r) with Some t => Ok (t, fst (fst r)) | None => Err IndexError end)
    (filter (fun r => (snd r <? Z.of_nat n)%Z) (filter (fun r => (snd (fst r) =? c)%string) recs)) = Err IndexError.
Proof.
  intros Hin E Hlo.
  assert (K : In r (filter (fun r => (snd r <? Z.of_nat n)%Z) (filter (fun r => (snd (fst r) =? c)%string) recs))).
  { apply filter_In. split; [apply filter_In; split; auto; apply String.eqb_eq; auto|]. apply Z.ltb_lt. lia. }
  revert K. generalize (filter (fun r => (snd r <? Z.of_nat n)%Z) (filter (fun r => (snd (fst r) =? c)%string) recs)). intros l K.
  induction l as [|r' l IH]; [destruct K|]. cbn [mapM]. destruct (np_index n (snd r')) as [t|] eqn:Ei; [|reflexivity]. cbn [bind].
  destruct K as [->|K]; [|rewrite IH; auto]. apply np_index_spec in Ei. lia.
Qed.
Lemma writes_bound n c recs : Forall (fun w => fst w < n) (writes n c recs).
Proof.
  apply Forall_forall. intros w Hw. apply in_flat_map in Hw. destruct Hw as (r & _ & Hw). destruct (String.eqb _ _); [|destruct Hw].
  destruct (np_index n (snd r)) as [t|] eqn:E; [|destruct Hw]. destruct Hw as [<-|[]]. apply np_index_spec in E. cbn. lia.
Qed.
Lemma lastw_app a b t : lastw (a ++ b) t = match lastw b t with Some v => Some v | None => lastw a t end.
Proof. induction a as [|[i v] a IH]; cbn; [destruct (lastw b t); auto|]. rewrite IH. destruct (lastw b t); auto. Qed.
Lemma writes_app n c a b : writes n c (a ++ b) = writes n c a ++ writes n c b.
Proof. unfold writes. apply flat_map_app. Qed.
Lemma lastw_spec n c recs t : t < n ->
  (forall v, lastw (writes n c recs) t = Some v <-> exists a r b, recs = a ++ r :: b /\ hits n c t r /\ fst (fst r) = v /\ forall r', In r' b -> ~ hits n c t r') /\
  (lastw (writes n c recs) t = None <-> forall r, In r recs -> ~ hits n c t r).
Proof.
  intros Ht.
  assert (One : forall r, lastw (writes n c [r]) t = if (snd (fst r) =? c)%string then match np_index n (snd r) with Some i => if Nat.eqb i t then Some (fst (fst r)) else None | None => None end else None).
  { intros r. unfold writes. cbn. destruct (String.eqb _ _); auto. destruct (np_index _ _); auto. }
  assert (OneS : forall r v, lastw (writes n c [r]) t = Some v <-> hits n c t r /\ fst (fst r) = v).
  { intros r v. rewrite One. unfold hits. destruct (String.eqb_spec (snd (fst r)) c) as [E|N]; [|intuition discriminate].
    destruct (np_index n (snd r)) as [i|] eqn:Ei.
    - destruct (Nat.eqb_spec i t) as [->|Nt].
      + apply np_index_spec in Ei. split; [intros [= <-]; intuition|]. intros (_ & <-). reflexivity.
      + split; [discriminate|]. intros ((_ & Hh) & _). exfalso. apply Nt. assert (Q : np_index n (snd r) = Some t) by (apply np_index_spec; auto). congruence.
    - split; [discriminate|]. intros ((_ & Hh) & _). assert (Q : np_index n (snd r) = Some t) by (apply np_index_spec; auto). congruence. }
  assert (NoneS : lastw (writes n c recs) t = None <-> forall r, In r recs -> ~ hits n c t r).
  { induction recs as [|r recs IH]; [split; auto; intros _ r []|]. change (r :: recs) with ([r] ++ recs). rewrite writes_app, lastw_app. split.
    - destruct (lastw (writes n c recs) t) eqn:E; [discriminate|]. intros H1 r' [<-|Hin] Hh; [|apply (proj1 IH eq_refl r'); auto].
      assert (Q : lastw (writes n c [r]) t = Some (fst (fst r))) by (apply OneS; auto). congruence.
    - intros H. rewrite (proj2 IH) by (intros; apply H; right; auto). destruct (lastw (writes n c [r]) t) eqn:E; auto. apply OneS in E. exfalso. apply (H r); [left; auto|apply E]. }
  split; auto. clear NoneS. intros v. split.
  - induction recs as [|r recs IH]; [discriminate|]. change (r :: recs) with ([r] ++ recs). rewrite writes_app, lastw_app.
    destruct (lastw (writes n c recs) t) as [u|] eqn:E.
    + intros [= ->]. destruct (IH eq_refl) as (a & r0 & b & -> & H). exists (r :: a), r0, b. split; auto.
    + intros H1. apply OneS in H1. exists [], r, recs. split; auto. split; [apply H1|]. split; [apply H1|].
      clear IH H1. intros r' Hin Hh. revert E. induction recs as [|q recs IH]; [destruct Hin|]. change (q :: recs) with ([q] ++ recs). rewrite writes_app, lastw_app.
      destruct (lastw (writes n c recs) t) eqn:E2; [discriminate|]. intros E. destruct Hin as [->|Hin]; [|apply IH; auto].
      assert (Q : lastw (writes n c [r']) t = Some (fst (fst r'))) by (apply OneS; auto). congruence.
  - intros (a & r & b & -> & Hh & <- & Hb). change (a ++ r :: b) with (a ++ [r] ++ b). rewrite !writes_app, !lastw_app.
    assert (Q : lastw (writes n c b) t = None).
    { clear - Hb OneS Ht. induction b as [|q b IH]; auto. change (q :: b) with ([q] ++ b). rewrite writes_app, lastw_app. rewrite IH by (intros; apply Hb; right; auto).
      destruct (lastw (writes n c [q]) t) eqn:E; auto. apply OneS in E. exfalso. apply (Hb q); [left; auto|apply E]. }
    rewrite Q. rewrite (proj2 (OneS r _)) by auto. reflexivity.
Qed.

Lemma store_one_ok n ids recs c m k : shape n k m -> k = length ids -> (forall r, In r recs -> snd (fst r) = c -> In c ids -> - Z.of_nat n <= snd r)%Z ->
  exists m', store_one n ids recs c m = Ok m' /\ shape n k m' /\
  forall t j, cell m' t j = match first_index ids c with
     | Some j0 => if Nat.eqb j j0 then match lastw (writes n c recs) t with Some v => v | None => cell m t j end else cell m t j
     | None => cell m t j end.
Proof.
  intros Hs -> H. unfold store_one. destruct (filter _ recs) as [|q l] eqn:EF.
  - exists m. split; auto. split; auto. intros t j. replace (writes n c recs) with (@nil (nat * O)); [cbn; destruct (first_index ids c); auto; destruct (Nat.eqb _ _); auto|].
    symmetry. unfold writes. clear - EF. induction recs as [|r recs IH]; auto. cbn in *. destruct (String.eqb _ _); [discriminate|]. auto.
  - rewrite <- EF. clear EF q l. destruct (first_index ids c) as [j0|] eqn:EJ; [|exists m; auto].
    assert (EJ' := EJ). apply first_index_some in EJ'. destruct EJ' as (J1 & J2 & J3).
    rewrite writes_ok by (intros r Hr E; apply H; auto; rewrite <- J2; apply get_In; auto). cbn [bind]. eexists. split; [reflexivity|].
    apply writes_cell; auto. apply writes_bound.
Qed.

(** ** the loop over the links *)
Lemma store_loop_ok n ids recs use : (forall r, In r recs -> In (snd (fst r)) use -> In (snd (fst r)) ids -> - Z.of_nat n <= snd r)%Z ->
  forall m, shape n (length ids) m ->
  exists m', store_loop n ids recs use m = Ok m' /\ shape n (length ids) m' /\
  forall t j, t < n -> j < length ids ->
   (forall v, In (get EmptyString ids j) use -> first_index ids (get EmptyString ids j) = Some j -> lastw (writes n (get EmptyString ids j) recs) t = Some v -> cell m' t j = v) /\
   (~ (In (get EmptyString ids j) use /\ first_index ids (get EmptyString ids j) = Some j /\ lastw (writes n (get EmptyString ids j) recs) t <> None) -> cell m' t j = cell m t j).
Proof.
  induction use as [|c use IH]; intros HB m Hs; cbn [store_loop].
  - exists m. split; auto. split; auto. intros t j Ht Hj. split; auto. intros v [].
  - destruct (store_one_ok n ids recs c m (length ids) Hs eq_refl) as (m1 & E1 & S1 & H1).
    { intros r Hr E Hi. apply HB; auto; rewrite E; auto. left; auto. }
    rewrite E1. cbn [bind]. destruct (IH (fun r Hr Hu => HB r Hr (or_intror Hu)) m1 S1) as (m2 & E2 & S2 & H2).
    exists m2. split; auto. split; auto. intros t j Ht Hj. destruct (H2 t j Ht Hj) as [Ha Hb]. set (cj := get EmptyString ids j) in *. split.
    + intros v Hin HF HL. destruct (in_dec string_dec cj use) as [Hu|Hu]; [apply Ha; auto|]. destruct Hin as [->|Hin]; [|contradiction].
      rewrite Hb by tauto. rewrite H1, HF, Nat.eqb_refl, HL. reflexivity.
    + intros N. rewrite Hb by (intros (? & ? & ?); apply N; split; [right; auto|auto]). rewrite H1. destruct (first_index ids c) as [j0|] eqn:EJ; auto.
      destruct (Nat.eqb_spec j j0) as [->|]; auto. destruct (lastw (writes n c recs) t) eqn:EL; auto. exfalso. apply N.
      apply first_index_some in EJ. destruct EJ as (J1 & J2 & J3). unfold cj. rewrite J2. split; [left; auto|]. split; [apply first_index_some; auto|]. congruence.
Qed.
Lemma store_loop_err n ids recs use r : In r recs -> In (snd (fst r)) use -> In (snd (fst r)) ids -> (snd r < - Z.of_nat n)%Z ->
  forall m, shape n (length ids) m -> store_loop n ids recs use m = Err IndexError.
Proof.
  intros Hr Hu Hi Hlo. induction use as [|c use IH]; intros m Hs; [destruct Hu|]. cbn [store_loop].
  assert (D : (exists m', store_one n ids recs c m = Ok m' /\ shape n (length ids) m') \/ store_one n ids recs c m = Err IndexError).
  { unfold store_one. destruct (filter _ recs) as [|q l] eqn:EF; [left; eauto|]. rewrite <- EF. destruct (first_index ids c) as [j0|] eqn:EJ; [|left; eauto].
    destruct (mapM _ _) as [ws|e] eqn:EM; cbn [bind].
    - left. eexists. split; [reflexivity|]. apply first_index_some in EJ. apply writes_cell; auto; [apply EJ|].
      apply (mapM_inv _ (n_nan, EmptyString, 0%Z) (0, n_nan)) in EM. destruct EM as [L EM]. apply Forall_forall. intros w Hw. apply (In_get (0, n_nan)) in Hw. destruct Hw as (i & Hi' & <-).
      rewrite L in Hi'. specialize (EM i Hi'). destruct (np_index n _) as [t|] eqn:Ei; [|discriminate]. apply np_index_spec in Ei. assert (Q : get (0, n_nan) ws i = (t, fst (fst (get (n_nan, EmptyString, 0%Z) (filter (fun r => (snd r <? Z.of_nat n)%Z) (filter (fun r => (snd (fst r) =? c)%string) recs)) i)))) by congruence. rewrite Q. cbn. lia.
    - right. clear - EM. revert e EM. generalize (filter (fun r : O * string * Z => (snd r <? Z.of_nat n)%Z) (filter (fun r => (snd (fst r) =? c)%string) recs)).
      induction l as [|x l IH]; intros e EM; [discriminate|]. cbn in EM. destruct (np_index n (snd x)); cbn [bind] in EM; [|injection EM as <-; reflexivity]. destruct (mapM _ l) as [|e0]; cbn [bind] in EM; [discriminate|]. injection EM as <-. apply IH. reflexivity. }
  destruct (string_dec c (snd (fst r))) as [->|N].
  - unfold store_one. destruct (filter _ recs) as [|q l] eqn:EF.
    + exfalso. assert (In r (filter (fun r0 => (snd (fst r0) =? snd (fst r))%string) recs)) by (apply filter_In; split; auto; apply String.eqb_refl). rewrite EF in *. contradiction.
    + rewrite <- EF. destruct (first_index ids (snd (fst r))) as [j0|] eqn:EJ; [|apply first_index_none in EJ; contradiction].
      rewrite (writes_bad n _ recs r Hr eq_refl Hlo). reflexivity.
  - destruct Hu as [Hu|Hu]; [congruence|]. destruct D as [(m' & E & S')|E]; rewrite E; cbn [bind]; auto.
Qed.

(** ** the whole function *)
Lemma used_In cml_ids u (p : list O) ti r : In r (zip3 p cml_ids ti) ->
  (In (snd (fst r)) (match u with Some l => l | None => nodup string_dec cml_ids end) <-> In (snd (fst r)) (used cml_ids u)).
Proof. intros _. destruct u; cbn; [tauto|]. apply nodup_In. Qed.
Lemma full_shape n k : shape n k (repeat (repeat (n_nan : O) k) n) /\ forall t j, t < n -> j < k -> cell (repeat (repeat (n_nan : O) k) n) t j = n_nan.
Proof.
  split; [split; [apply repeat_length|]|]; intros t; intros; rewrite (get_repeat []) by auto; [apply repeat_length|]. apply get_repeat; auto.
Qed.
Lemma addresses_hits n ids use r t j : j < length ids -> (addresses n ids use r t j <-> In (snd (fst r)) use /\ first_index ids (get EmptyString ids j) = Some j /\ hits n (get EmptyString ids j) t r).
Proof.
  intros Hj. destruct r as [[v c] i]. unfold addresses, hits. cbn [fst snd]. rewrite first_index_some. split.
  - intros (H1 & H2 & H3 & H4 & H5). subst c. repeat (split; auto).
  - intros (H1 & (H2 & _ & H4) & E & H5). subst c. repeat (split; auto).
Qed.
Lemma store_correct (ds : dataset O) prob cml_ids ti u : length prob = length cml_ids -> length prob = length ti ->
  (forall r, In r (zip3 prob cml_ids ti) -> In (snd (fst r)) (used cml_ids u) -> In (snd (fst r)) (ds_ids ds) -> - Z.of_nat (ds_time ds) <= snd r)%Z ->
  exists m, store_predictions ds prob cml_ids ti u = Ok m /\ length m = ds_time ds /\ forall t, t < ds_time ds -> length (get [] m t) = length (ds_ids ds) /\
  forall j, j < length (ds_ids ds) ->
   (forall v, last_for (ds_time ds) (ds_ids ds) (used cml_ids u) (zip3 prob cml_ids ti) t j v -> nget (get [] m t) j = v) /\
   ((forall r, In r (zip3 prob cml_ids ti) -> ~ addresses (ds_time ds) (ds_ids ds) (used cml_ids u) r t j) -> nget (get [] m t) j = n_nan).
Proof.
  intros L1 L2 HB. unfold store_predictions. rewrite <- L1, <- L2, !Nat.eqb_refl. cbn [negb orb]. fold (zip3 prob cml_ids ti).
  set (use := match u with Some l => l | None => nodup string_dec cml_ids end). set (recs := zip3 prob cml_ids ti) in *.
  destruct (full_shape (ds_time ds) (length (ds_ids ds))) as [S0 N0].
  assert (HU : forall r, In r recs -> (In (snd (fst r)) use <-> In (snd (fst r)) (used cml_ids u))) by (intros r Hr; eapply used_In; exact Hr).
  destruct (store_loop_ok (ds_time ds) (ds_ids ds) recs use) with (m := repeat (repeat (n_nan : O) (length (ds_ids ds))) (ds_time ds)) as (m & E & [SL SR] & H); auto.
  { intros r Hr Hu Hi. apply HB; auto. apply HU; auto. }
  exists m. split; auto. split; auto. intros t Ht. split; auto. intros j Hj. destruct (H t j Ht Hj) as [Ha Hb].
  pose proof (lastw_spec (ds_time ds) (get EmptyString (ds_ids ds) j) recs t Ht) as [LS LN]. split.
  - intros v (a & r & b & ER & HA & Ev & HL). apply addresses_hits in HA; auto. destruct HA as (A1 & A2 & A3).
    assert (Hr : In r recs) by (rewrite ER; apply in_or_app; right; left; auto). apply Ha; auto.
    + destruct A3 as [<- _]. apply HU; auto.
    + apply LS. exists a, r, b. split; auto. split; auto. split; auto. intros r' Hr' Hh. apply (HL r' Hr'). apply addresses_hits; auto. split; auto.
      destruct A3 as [A3 _], Hh as [Hh _]. rewrite Hh, <- A3. exact A1.
  - intros HN. rewrite Hb; [apply N0; auto|]. intros (U & F & L).
    destruct (lastw (writes (ds_time ds) (get EmptyString (ds_ids ds) j) recs) t) as [v|] eqn:EL; [|congruence].
    destruct (proj1 (LS v) eq_refl) as (a & r & b & ER & HH & _). assert (Hr : In r recs) by (rewrite ER; apply in_or_app; right; left; auto).
    apply (HN r Hr). apply addresses_hits; auto. split; auto. apply HU; auto. destruct HH as [-> _]. exact U.
Qed.
Lemma store_rejects (ds : dataset O) prob cml_ids ti u :
  (length prob <> length cml_ids \/ length prob <> length ti -> store_predictions ds prob cml_ids ti u = Err ValueError) /\
  (length prob = length cml_ids -> length prob = length ti ->
   (exists r, In r (zip3 prob cml_ids ti) /\ In (snd (fst r)) (used cml_ids u) /\ In (snd (fst r)) (ds_ids ds) /\ (snd r < - Z.of_nat (ds_time ds))%Z) ->
   store_predictions ds prob cml_ids ti u = Err IndexError).
Proof.
  unfold store_predictions. split.
  - intros H. destruct (Nat.eqb_spec (length prob) (length cml_ids)), (Nat.eqb_spec (length prob) (length ti)); cbn [negb orb]; auto. exfalso. tauto.
  - intros L1 L2 (r & Hr & Hu & Hi & Hlo). rewrite <- L1, <- L2, !Nat.eqb_refl. cbn [negb orb]. apply (store_loop_err _ _ _ _ r); auto; [|apply full_shape].
    apply (used_In cml_ids u prob ti r Hr). exact Hu.
Qed.
End P.
