(** * Proofs about the PyTorch inference *)
From Coq Require Import List ZArith Bool String Lia Arith.
From Verif Require Import Base Num NumList NpOps NearbyWetdry_model NearbyWetdry_proofs Mlp_proofs TfInfer_model TfInfer_spec TfInfer_proofs TorchInfer_model TorchInfer_spec.
Import ListNotations.
Local Open Scope nat_scope.
Local Notation length := List.length.

(** ** rolling windows *)
Lemma mapM_map {A B} (f : A -> res B) (g : A -> B) l : (forall x, In x l -> f x = Ok (g x)) -> mapM f l = Ok (map g l).
Proof. induction l as [|a l IH]; intros H; auto. cbn [mapM map]. rewrite (H a) by (left; auto). cbn [bind]. rewrite IH by (intros x Hx; apply H; right; auto). reflexivity. Qed.
Lemma mapM_err {A B} (f : A -> res B) e l : (forall x, In x l -> (exists y, f x = Ok y) \/ f x = Err e) -> (exists x, In x l /\ f x = Err e) -> mapM f l = Err e.
Proof.
  induction l as [|a l IH]; intros H (x & Hx & E); [destruct Hx|]. cbn [mapM]. destruct (H a (or_introl eq_refl)) as [[y Ey]|Ey]; rewrite Ey; cbn [bind]; auto.
  rewrite IH; auto; [intros z Hz; apply H; right; auto|]. exists x. destruct Hx as [->|Hx]; [congruence|]. auto.
Qed.
Lemma py_index_ok {A} (d : A) (l : list A) i : (0 <= i < Z.of_nat (length l))%Z -> py_index l i = Ok (get d l (Z.to_nat i)).
Proof.
  intros H. unfold py_index. assert (E : np_index (length l) i = Some (Z.to_nat i)) by (apply np_index_spec; lia). rewrite E.
  unfold get. rewrite (nth_error_nth' l d) by lia. reflexivity.
Qed.
Lemma py_index_err {A} (l : list A) i : (Z.of_nat (length l) <= i)%Z -> py_index l i = Err IndexError.
Proof.
  intros H. unfold py_index, np_index. destruct (Z.leb_spec 0 i), (Z.ltb_spec i (Z.of_nat (length l))), (Z.leb_spec (- Z.of_nat (length l)) i), (Z.ltb_spec i 0); cbn; auto; lia.
Qed.
Lemma py_index_total {A} (l : list A) i : (0 <= i)%Z -> (exists x, py_index l i = Ok x) \/ py_index l i = Err IndexError.
Proof.
  intros H. destruct l as [|d l']; [right; unfold py_index, np_index; cbn; destruct (0 <=? i)%Z, (i <? 0)%Z eqn:E; cbn; auto; destruct (Z.ltb_spec i 0); try lia; rewrite ?andb_false_r; auto|].
  set (l := d :: l') in *. destruct (Z.lt_ge_cases i (Z.of_nat (length l))).
  - left. eexists. apply (py_index_ok d). lia.
  - right. apply py_index_err. lia.
Qed.
Lemma concat_sel {A B} (f : A -> list B) (g : A -> B) (P : A -> bool) l : (forall x, In x l -> f x = if P x then [g x] else []) -> List.concat (map f l) = map g (filter P l).
Proof.
  induction l as [|a l IH]; intros H; auto. cbn [map List.concat filter]. rewrite (H a) by (left; auto). rewrite IH by (intros x Hx; apply H; right; auto). destruct (P a); reflexivity.
Qed.
Lemma filter_windows n w : 0 < w -> filter (fun s => s + w <=? n) (seq 0 n) = seq 0 (n + 1 - w).
Proof.
  intros Hw. destruct (Nat.le_gt_cases w n) as [H|H].
  - replace (seq 0 n) with (seq 0 (n + 1 - w) ++ seq (n + 1 - w) (w - 1)) by (rewrite <- seq_app; f_equal; lia). rewrite filter_app.
    assert (E1 : forall l, (forall s, In s l -> s + w <= n) -> filter (fun s => s + w <=? n) l = l).
    { induction l as [|a l IH]; intros Q; auto. cbn. destruct (Nat.leb_spec (a + w) n); [f_equal; apply IH; intros s Hs; apply Q; right; auto|]. specialize (Q a (or_introl eq_refl)). lia. }
    assert (E2 : forall l, (forall s, In s l -> n < s + w) -> filter (fun s => s + w <=? n) l = []).
    { induction l as [|a l IH]; intros Q; auto. cbn. destruct (Nat.leb_spec (a + w) n); [specialize (Q a (or_introl eq_refl)); lia|]. apply IH. intros s Hs. apply Q. right. auto. }
    rewrite E1, E2, app_nil_r; auto; intros s Hs; apply in_seq in Hs; lia.
  - replace (n + 1 - w) with 0 by lia. cbn. assert (E2 : forall l, (forall s, In s l -> n < s + w) -> filter (fun s => s + w <=? n) l = []).
    { induction l as [|a l IH]; intros Q; auto. cbn. destruct (Nat.leb_spec (a + w) n); [specialize (Q a (or_introl eq_refl)); lia|]. apply IH. intros s Hs. apply Q. right. auto. }
    apply E2. intros s Hs. lia.
Qed.

(** the target of window [k]: [k + w - h], or its last step if that is negative *)
Definition target (w h k : nat) : nat := if h <=? k + w then k + w - h else k + w - 1.

Lemma rolling_ok {A} (ts : list A) times (w : nat) (reflength : Z) : 0 < w -> length times = length ts -> (2 <= reflength)%Z ->
  rolling_window ts times (Z.of_nat w) reflength =
    Ok (map (fun k => slice k (k + w) ts) (seq 0 (length ts + 1 - w)), map (fun k => get 0%Z times (target w (Z.to_nat (Z.quot reflength 2)) k)) (seq 0 (length ts + 1 - w))).
Proof.
  intros Hw HL HR. unfold rolling_window. destruct (Z.leb_spec (Z.of_nat w) 0); [lia|]. rewrite HL, Nat.eqb_refl. cbn [negb]. rewrite Nat2Z.id. cbv zeta.
  assert (Hh : (1 <= Z.quot reflength 2)%Z) by (rewrite Z.quot_div_nonneg by lia; apply Z.div_le_lower_bound; lia).
  set (h := Z.quot reflength 2) in *. clearbody h.
  set (g := fun k => (slice k (k + w) ts, get 0%Z times (target w (Z.to_nat h) k))).
  erewrite (mapM_map _ (fun k => if k + w <=? length ts then [g k] else [])).
  - cbn [bind]. rewrite (concat_sel _ g (fun k => k + w <=? length ts)) by auto. rewrite filter_windows by auto. rewrite !map_map. reflexivity.
  - intros k Hk. apply in_seq in Hk. destruct (Nat.leb_spec (k + w) (length ts)) as [Q|Q]; auto. unfold g.
    rewrite (py_index_ok 0%Z).
    + cbn [bind]. do 4 f_equal. unfold target. destruct (Z.leb_spec 0 (Z.of_nat (k + w) - h)), (Nat.leb_spec (Z.to_nat h) (k + w)); lia.
    + rewrite HL. destruct (Z.leb_spec 0 (Z.of_nat (k + w) - h)); lia.
Qed.
Lemma rolling_short {A} (ts : list A) times (w : nat) (reflength : Z) : 0 < w -> length times = length ts -> length ts < w -> rolling_window ts times (Z.of_nat w) reflength = Ok ([], []).
Proof.
  intros Hw HL HS. unfold rolling_window. destruct (Z.leb_spec (Z.of_nat w) 0); [lia|]. rewrite HL, Nat.eqb_refl. cbn [negb]. rewrite Nat2Z.id. cbv zeta.
  erewrite (mapM_map _ (fun _ => [])).
  - cbn [bind]. assert (E : forall l : list nat, List.concat (map (fun _ => @nil (list A * Z)) l) = []) by (induction l; auto). rewrite E. reflexivity.
  - intros k Hk. destruct (Nat.leb_spec (k + w) (length ts)); [lia|reflexivity].
Qed.
Lemma rolling_small_ref {A} (ts : list A) times (w : nat) (reflength : Z) : 0 < w -> length times = length ts -> w <= length ts -> (reflength < 2)%Z -> rolling_window ts times (Z.of_nat w) reflength = Err IndexError.
Proof.
  intros Hw HL HS HR. unfold rolling_window. destruct (Z.leb_spec (Z.of_nat w) 0); [lia|]. rewrite HL, Nat.eqb_refl. cbn [negb]. rewrite Nat2Z.id. cbv zeta.
  assert (Hh : (Z.quot reflength 2 <= 0)%Z).
  { destruct (Z.lt_ge_cases reflength 0); [|destruct (Z.eq_dec reflength 0) as [->|]; [cbn; lia|replace reflength with 1%Z by lia; cbn; lia]].
    pose proof (Z.quot_opp_l reflength 2 ltac:(lia)). assert (0 <= Z.quot (- reflength) 2)%Z by (apply Z.quot_pos; lia). lia. }
  set (h := Z.quot reflength 2) in *. clearbody h.
  rewrite (mapM_err _ IndexError); [reflexivity| |].
  - intros k _. destruct (k + w <=? length ts); [|eauto]. destruct (Z.leb_spec 0 (Z.of_nat (k + w) - h)); [|lia].
    destruct (py_index_total times (Z.of_nat (k + w) - h) ltac:(lia)) as [[x E]|E]; rewrite E; cbn; eauto.
  - exists (length ts - w). split; [apply in_seq; lia|]. destruct (Nat.leb_spec (length ts - w + w) (length ts)); [|lia]. destruct (Z.leb_spec 0 (Z.of_nat (length ts - w + w) - h)); [|lia].
    rewrite py_index_err by lia. reflexivity.
Qed.
Lemma rolling_asserts {A} (ts : list A) times ws reflength : (ws <= 0)%Z \/ length times <> length ts -> rolling_window ts times ws reflength = Err AssertionError.
Proof.
  intros H. unfold rolling_window. destruct (Z.leb_spec ws 0); auto. destruct H as [H|H]; [lia|]. destruct (Nat.eqb_spec (length times) (length ts)); [contradiction|]. reflexivity.
Qed.

(** targets: distinct for h <= w, shared for larger h *)
Lemma target_inj w h a b : 1 <= h <= w -> target w h a = target w h b -> a = b.
Proof. unfold target. intros H. destruct (Nat.leb_spec h (a + w)), (Nat.leb_spec h (b + w)); lia. Qed.
Lemma target_shared w h k : 0 < w -> w < h -> k < h - w -> target w h k = target w h (k + (h - 1)).
Proof. unfold target. intros. destruct (Nat.leb_spec h (k + w)), (Nat.leb_spec h (k + (h - 1) + w)); lia. Qed.

(** ** batches *)
Lemma batches_concat {A B} (net : list A -> list B) (f : A -> B) b : samplewise net f -> 0 < b -> forall fuel l, length l <= fuel -> List.concat (map net (batches fuel b l)) = map f l.
Proof.
  intros HN Hb. induction fuel as [|fuel IH]; intros l Hl; [destruct l; [reflexivity|cbn in Hl; lia]|]. destruct l as [|a l]; [reflexivity|]. set (x := a :: l) in *.
  cbn [batches]. destruct x eqn:Ex; [discriminate|]. rewrite <- Ex. cbn [map List.concat]. rewrite HN, IH.
  - rewrite <- map_app, firstn_skipn. reflexivity.
  - rewrite skipn_length. rewrite Ex. cbn [length]. subst x. injection Ex as -> ->. cbn in Hl. lia.
Qed.

Section P.
Context {O : numops}.
Notation cell m t j := (nget (get ([] : list O) m t) j).

Lemma batch_size_irrelevant net f ws (d : cube O) b b' r : samplewise net f -> (1 <= b)%Z -> (1 <= b')%Z -> run_inference net ws d b r = run_inference net ws d b' r.
Proof.
  intros HN H1 H2. unfold run_inference. destruct (batchify_windows d ws r) as [[[ids times] samples]|e]; cbn [bind]; auto.
  unfold build_dataloader. destruct (length samples =? 0); auto. destruct (Z.leb_spec b 0), (Z.leb_spec b' 0); try lia. cbn [bind].
  rewrite !(batches_concat net f) by (auto; rewrite ?map_length; lia). reflexivity.
Qed.

(** ** writing the predictions *)
Definition write1 (ids : list string) (times : list Z) (m : list (list O)) (p : string * Z * O) : list (list O) :=
  let '(c, t, v) := p in match first_index ids c, first_time times t with Some j, Some i => upd2 i j v m | _, _ => m end.
Definition at_cell (ids : list string) (times : list Z) (p : string * Z * O) (i j : nat) : Prop := first_index ids (fst (fst p)) = Some j /\ first_time times (snd (fst p)) = Some i.

Lemma first_time_nodup times i : NoDup times -> i < length times -> first_time times (get 0%Z times i) = Some i.
Proof.
  revert i. induction times as [|t times IH]; intros i ND Hi; [cbn in Hi; lia|]. inversion ND; subst. destruct i as [|i]; cbn [first_time].
  - change (get 0%Z (t :: times) 0) with t. rewrite Z.eqb_refl. reflexivity.
  - change (get 0%Z (t :: times) (S i)) with (get 0%Z times i). destruct (Z.eqb_spec t (get 0%Z times i)) as [E|N].
    + exfalso. apply H1. rewrite E. apply get_In. cbn in Hi. lia.
    + rewrite IH by (auto; cbn in Hi; lia). reflexivity.
Qed.
Lemma first_time_lt times t i : first_time times t = Some i -> i < length times.
Proof.
  revert i. induction times as [|x times IH]; intros i E; cbn in E; [discriminate|]. destruct (x =? t)%Z; [injection E as <-; cbn; lia|].
  destruct (first_time times t) as [k|]; [|discriminate]. cbn in E. injection E as <-. specialize (IH k eq_refl). cbn. lia.
Qed.
Lemma first_time_inj times a b i : first_time times a = Some i -> first_time times b = Some i -> a = b.
Proof.
  revert i. induction times as [|x times IH]; intros i E F; cbn in *; [discriminate|]. destruct (Z.eqb_spec x a) as [Ea|Na], (Z.eqb_spec x b) as [Eb|Nb]; [congruence| | |].
  - injection E as <-. destruct (first_time times b); discriminate.
  - injection F as <-. destruct (first_time times a); discriminate.
  - destruct (first_time times a) as [k|], (first_time times b) as [l|]; try discriminate. cbn in *. injection E as <-. injection F as F. apply (IH k); congruence.
Qed.

Lemma writes_cells ids times ps : forall m, shape (length times) (length ids) m ->
  shape (length times) (length ids) (fold_left (write1 ids times) ps m) /\
  forall i j, i < length times -> j < length ids ->
   ((forall p, In p ps -> ~ at_cell ids times p i j) -> cell (fold_left (write1 ids times) ps m) i j = cell m i j) /\
   (forall v, (exists p, In p ps /\ at_cell ids times p i j) -> (forall p, In p ps -> at_cell ids times p i j -> snd p = v) -> cell (fold_left (write1 ids times) ps m) i j = v).
Proof.
  induction ps as [|p ps IH]; intros m SH; cbn [fold_left].
  - split; auto. intros i j Hi Hj. split; auto. intros v (p & [] & _).
  - assert (SH1 : shape (length times) (length ids) (write1 ids times m p)).
    { destruct p as [[c t] v]. cbn. destruct (first_index ids c), (first_time times t); auto. apply upd2_shape; auto. }
    destruct (IH _ SH1) as [S2 I]. split; auto. intros i j Hi Hj. destruct (I i j Hi Hj) as [I1 I2].
    assert (W : (at_cell ids times p i j /\ cell (write1 ids times m p) i j = snd p) \/ (~ at_cell ids times p i j /\ cell (write1 ids times m p) i j = cell m i j)).
    { destruct p as [[c t] v]. unfold at_cell. cbn [write1 fst snd]. destruct (first_index ids c) as [j'|] eqn:Ej; [|right; split; [intros [Q _]; discriminate|auto]].
      destruct (first_time times t) as [i'|] eqn:Ei; [|right; split; [intros [_ Q]; discriminate|auto]].
      rewrite (upd2_cell (length times) (length ids)); auto; [|eapply first_time_lt; eauto|apply first_index_some in Ej; tauto].
      destruct (Nat.eqb_spec i i') as [->|Ni], (Nat.eqb_spec j j') as [->|Nj]; cbn [andb]; auto; right; (split; [intros [Q1 Q2]; congruence|auto]). }
    split.
    + intros H. rewrite I1 by (intros q Hq; apply H; right; auto). destruct W as [[W _]|[_ W]]; auto. exfalso. apply (H p); [left; auto|auto].
    + intros v (q & Hq & Aq) HV. destruct (existsb (fun q => match first_index ids (fst (fst q)), first_time times (snd (fst q)) with Some j', Some i' => Nat.eqb i i' && Nat.eqb j j' | _, _ => false end) ps) eqn:EX.
      * apply existsb_exists in EX. destruct EX as (q' & Hq' & E). destruct (first_index ids (fst (fst q'))) as [j'|] eqn:Ej; [|discriminate]. destruct (first_time times (snd (fst q'))) as [i'|] eqn:Ei; [|discriminate].
        apply andb_true_iff in E. destruct E as [E1 E2]. apply Nat.eqb_eq in E1, E2. subst i' j'. apply I2; [exists q'; split; [auto|split; auto]|]. intros q0 Hq0 A0. apply HV; auto. right; auto.
      * assert (N : forall q0, In q0 ps -> ~ at_cell ids times q0 i j).
        { intros q0 Hq0 [A1 A2]. apply not_true_iff_false in EX. apply EX. apply existsb_exists. exists q0. split; auto. rewrite A1, A2, !Nat.eqb_refl. reflexivity. }
        rewrite I1 by auto. destruct Hq as [<-|Hq]; [|exfalso; eapply N; eauto]. destruct W as [[_ W]|[W _]]; [|contradiction]. rewrite W. apply HV; auto. left; auto.
Qed.
End P.
