(** * Proofs about GridValidator: the weighted sum *)
From Coq Require Import List ZArith Bool Lia Arith Reals Lra.
From Flocq Require Import Core.
From Verif Require Import Base Num NumList NpOps Validator_model Validator_spec.
Import ListNotations.
Local Open Scope nat_scope.

Lemma nat_min_spec l m : nat_min l = Ok m -> In m l /\ forall x, In x l -> m <= x.
Proof.
  destruct l as [|x l]; [discriminate|]. cbn. intros E. injection E as <-. revert x. induction l as [|y l IH]; intros x; cbn [fold_left].
  - split; [left; auto|]. intros z [<-|[]]; auto.
  - destruct (IH (Nat.min x y)) as [I L]. split.
    + destruct I as [I|I]; [|right; right; auto]. rewrite <- I. destruct (Nat.min_spec x y) as [[_ ->]|[_ ->]]; [left|right; left]; auto.
    + pose proof (L _ (or_introl eq_refl)). intros z [<-|[<-|Hz]]; [lia|lia|apply L; right; auto].
Qed.
Lemma nat_max_spec l m : nat_max l = Ok m -> In m l /\ forall x, In x l -> x <= m.
Proof.
  destruct l as [|x l]; [discriminate|]. cbn. intros E. injection E as <-. revert x. induction l as [|y l IH]; intros x; cbn [fold_left].
  - split; [left; auto|]. intros z [<-|[]]; auto.
  - destruct (IH (Nat.max x y)) as [I L]. split.
    + destruct I as [I|I]; [|right; right; auto]. rewrite <- I. destruct (Nat.max_spec x y) as [[_ ->]|[_ ->]]; [right; left|left]; auto.
    + pose proof (L _ (or_introl eq_refl)). intros z [<-|[<-|Hz]]; [lia|lia|apply L; right; auto].
Qed.
Lemma nat_min_ok l : l <> [] -> exists m, nat_min l = Ok m.
Proof. destruct l; [congruence|]. cbn. eauto. Qed.
Lemma nat_max_ok l : l <> [] -> exists m, nat_max l = Ok m.
Proof. destruct l; [congruence|]. cbn. eauto. Qed.
Lemma slice_get {A} (d : A) s e l : e <= length l -> slice s e l = map (get d l) (seq s (e - s)).
Proof.
  intros H. apply (get_ext d); [rewrite slice_length, map_length, seq_length; auto|]. intros i Hi. rewrite slice_length in Hi by auto.
  rewrite get_slice by auto. rewrite (get_map _ 0) by (rewrite seq_length; auto). unfold get at 3. rewrite seq_nth by auto. reflexivity.
Qed.
Lemma map2_same {A B C D} (f : B -> C -> D) (g : A -> B) (h : A -> C) l : map2 f (map g l) (map h l) = map (fun x => f (g x) (h x)) l.
Proof. unfold map2. induction l as [|x l IH]; cbn; auto. f_equal. exact IH. Qed.

Section P.
Context {O : numops} (S : numsem O).

Lemma where_positive_In (w : list (list O)) i j : In (i, j) (where_positive w) <-> i < length w /\ j < length (get [] w i) /\ n_ltb zero (at2 w i j) = true.
Proof.
  unfold where_positive. rewrite in_flat_map. split.
  - intros (i' & Hi & H). apply in_map_iff in H as (j' & E & H). injection E as -> ->. apply in_seq in Hi. apply where_true_In in H as [H1 H2].
    rewrite map_length in H1. rewrite (get_map _ n_nan) in H2 by auto. split; [lia|auto].
  - intros (Hi & Hj & H). exists i. split; [apply in_seq; lia|]. apply in_map_iff. exists j. split; auto. apply where_true_In. rewrite map_length. split; auto.
    rewrite (get_map _ n_nan) by auto. exact H.
Qed.

(** ** sums that agree in value *)
Definition sumeq (l l' : list O) : Prop := forall a a', val S a = val S a' -> val S (fold_left n_add l a) = val S (fold_left n_add l' a').
Lemma sumeq_refl l : sumeq l l.
Proof. induction l as [|x l IH]; intros a a' E; cbn; auto. apply IH. rewrite !(val_add _ S), E. reflexivity. Qed.
Lemma sumeq_app l1 l2 k1 k2 : sumeq l1 k1 -> sumeq l2 k2 -> sumeq (l1 ++ l2) (k1 ++ k2).
Proof. intros H1 H2 a a' E. rewrite !fold_left_app. apply H2, H1, E. Qed.
Lemma sumeq_zeros l : (forall x, In x l -> val S x = XFin 0) -> sumeq l [].
Proof.
  induction l as [|x l IH]; intros H a a' E; cbn; auto. cbn in IH. rewrite <- E. transitivity (val S (n_add a x)).
  - apply (IH (fun y Hy => H y (or_intror Hy))). reflexivity.
  - rewrite (val_add _ S), (H x) by (left; auto). transitivity (rnd S (val S a)); [|apply (rnd_val _ S)]. f_equal.
    destruct (val S a) as [| |r|]; cbn; auto. f_equal. lra.
Qed.
Lemma sumeq_concat {A} (f g : A -> list O) l : (forall x, In x l -> sumeq (f x) (g x)) -> sumeq (List.concat (map f l)) (List.concat (map g l)).
Proof.
  induction l as [|x l IH]; intros H; [apply sumeq_refl|]. cbn. apply sumeq_app; [apply H; left; auto|apply IH; intros y Hy; apply H; right; auto].
Qed.
(** only the terms with index in [s, s+n) matter *)
Lemma sumeq_range (f : nat -> O) s n W : s + n <= W -> (forall j, j < W -> j < s \/ s + n <= j -> val S (f j) = XFin 0) ->
  sumeq (map f (seq 0 W)) (map f (seq s n)).
Proof.
  intros H Z. replace W with (s + (n + (W - s - n))) by lia. rewrite !seq_app, !map_app. cbn [Nat.add].
  change (map f (seq s n)) with ([] ++ map f (seq s n)). apply sumeq_app.
  - apply sumeq_zeros. intros x Hx. apply in_map_iff in Hx as (j & <- & Hj). apply in_seq in Hj. apply Z; lia.
  - rewrite <- (app_nil_r (map f (seq s n))) at 2. apply sumeq_app; [apply sumeq_refl|]. apply sumeq_zeros. intros x Hx. apply in_map_iff in Hx as (j & <- & Hj). apply in_seq in Hj. apply Z; lia.
Qed.
Lemma sumeq_rows (f : nat -> list O) s n H : s + n <= H -> (forall i, i < H -> i < s \/ s + n <= i -> forall x, In x (f i) -> val S x = XFin 0) ->
  sumeq (List.concat (map f (seq 0 H))) (List.concat (map f (seq s n))).
Proof.
  intros L Z. replace H with (s + (n + (H - s - n))) by lia. rewrite !seq_app, !map_app, !concat_app. cbn [Nat.add].
  change (List.concat (map f (seq s n))) with ([] ++ List.concat (map f (seq s n))). apply sumeq_app.
  - apply sumeq_zeros. intros x Hx. apply in_concat in Hx as (r & Hr & Hx). apply in_map_iff in Hr as (i & <- & Hi). apply in_seq in Hi. apply (Z i); auto; lia.
  - rewrite <- (app_nil_r (List.concat (map f (seq s n)))) at 2. apply sumeq_app; [apply sumeq_refl|].
    apply sumeq_zeros. intros x Hx. apply in_concat in Hx as (r & Hr & Hx). apply in_map_iff in Hr as (i & <- & Hi). apply in_seq in Hi. apply (Z i); auto; lia.
Qed.
Lemma sumeq_trans l k m : sumeq l k -> sumeq k m -> sumeq l m.
Proof. intros H1 H2 a a' E. transitivity (val S (fold_left n_add k a)); [apply H1; auto|apply H2; auto]. Qed.

Lemma zero_contribution (g w : list (list O)) i j : n_ltb (at2 w i j) zero = false -> n_ltb zero (at2 w i j) = false -> val S (contribution g w i j) = XFin 0.
Proof.
  unfold contribution. cbv zeta. intros H1 H2. destruct (n_isnan (n_mul (at2 g i j) (at2 w i j))) eqn:E; [apply (val_0 S)|].
  rewrite (val_isnan _ S), (val_mul _ S), (rnd_nan _ S) in E. rewrite (val_mul _ S). rewrite (val_ltb _ S) in H1, H2. unfold zero in H1, H2. rewrite (val_0 S) in H1, H2.
  assert (D : xisnan (val S (at2 w i j)) = true \/ val S (at2 w i j) = XFin 0).
  { destruct (val S (at2 w i j)) as [| |r|]; cbn in *; auto; try discriminate. right. f_equal. xcases; lra. }
  destruct D as [D|D].
  - destruct (val S (at2 w i j)); try discriminate D. destruct (val S (at2 g i j)); discriminate E.
  - rewrite D in *. destruct (val S (at2 g i j)) as [| |r|].
    + discriminate E.
    + cbn in E. rewrite (Rcompare_Eq 0 0 eq_refl) in E. discriminate E.
    + cbn [xmul]. rewrite Rmult_0_r. apply (rnd_0 S).
    + cbn in E. rewrite (Rcompare_Eq 0 0 eq_refl) in E. discriminate E.
Qed.

Lemma box_rows H W (m : list (list O)) x0 x1 y0 y1 : mat H W m -> x1 < W -> y1 < H ->
  map (slice x0 (x1 + 1)) (slice y0 (y1 + 1) m) = map (fun i => map (at2 m i) (seq x0 (x1 + 1 - x0))) (seq y0 (y1 + 1 - y0)).
Proof.
  intros [L R] Hx Hy. rewrite (slice_get []) by lia. rewrite map_map. apply map_ext_in. intros i Hi. apply in_seq in Hi. apply (slice_get n_nan). rewrite R by lia. lia.
Qed.
Lemma box_sum H W (g w : list (list O)) x0 x1 y0 y1 : mat H W g -> mat H W w -> x0 <= x1 -> x1 < W -> y0 <= y1 -> y1 < H ->
  (forall i j, i < H -> j < W -> n_ltb (at2 w i j) zero = false) ->
  (forall i j, i < H -> j < W -> n_ltb zero (at2 w i j) = true -> y0 <= i <= y1 /\ x0 <= j <= x1) ->
  let box m := map (slice x0 (x1 + 1)) (slice y0 (y1 + 1) m) in
  val S (nansum (List.concat (map2 (map2 n_mul) (box g) (box w)))) = val S (whole_sum H W g w).
Proof.
  intros Mg Mw X1 X2 Y1 Y2 NN Box box. unfold box. rewrite !(box_rows H W) by auto. rewrite map2_same.
  assert (E : map (fun i => map2 n_mul (map (at2 g i) (seq x0 (x1 + 1 - x0))) (map (at2 w i) (seq x0 (x1 + 1 - x0)))) (seq y0 (y1 + 1 - y0)) =
    map (fun i => map (fun j => n_mul (at2 g i j) (at2 w i j)) (seq x0 (x1 + 1 - x0))) (seq y0 (y1 + 1 - y0))).
  { apply map_ext. intros i. apply map2_same. }
  rewrite E. unfold nansum, whole_sum, n_sum. rewrite concat_map, map_map.
  assert (E2 : map (fun i => map (fun x : O => if n_isnan x then zero else x) (map (fun j => n_mul (at2 g i j) (at2 w i j)) (seq x0 (x1 + 1 - x0)))) (seq y0 (y1 + 1 - y0)) =
    map (fun i => map (contribution g w i) (seq x0 (x1 + 1 - x0))) (seq y0 (y1 + 1 - y0))).
  { apply map_ext. intros i. rewrite map_map. reflexivity. }
  rewrite E2. symmetry.
  assert (Q : sumeq (List.concat (map (fun i => map (contribution g w i) (seq 0 W)) (seq 0 H))) (List.concat (map (fun i => map (contribution g w i) (seq x0 (x1 + 1 - x0))) (seq y0 (y1 + 1 - y0))))).
  { eapply sumeq_trans.
    - apply (sumeq_rows _ y0 (y1 + 1 - y0)); [lia|]. intros i Hi Ho x Hx. apply in_map_iff in Hx as (j & <- & Hj). apply in_seq in Hj.
      apply zero_contribution; [apply NN; lia|]. apply not_true_is_false. intros P. destruct (Box i j ltac:(lia) ltac:(lia) P). lia.
    - apply sumeq_concat. intros i Hi. apply in_seq in Hi. apply sumeq_range; [lia|]. intros j Hj Ho.
      apply zero_contribution; [apply NN; lia|]. apply not_true_is_false. intros P. destruct (Box i j ltac:(lia) ltac:(lia) P). lia. }
  apply Q. reflexivity.
Qed.

Lemma where_map_seq {A} (d : A) (p : A -> bool) l : where_true (map p l) = filter (fun i => p (get d l i)) (seq 0 (length l)).
Proof. unfold where_true. rewrite map_length. apply filter_ext_in. intros i Hi. apply in_seq in Hi. rewrite (get_map _ d) by lia. reflexivity. Qed.

Theorem time_series_correct H W (w : list (list O)) (i1 i2 : list Z) times values t_first t_last :
  mat H W w -> length values = length times -> (forall t, t < length times -> mat H W (get [] values t)) ->
  (forall i j, i < H -> j < W -> n_ltb (at2 w i j) zero = false) ->
  (exists i j, i < H /\ j < W /\ n_ltb zero (at2 w i j) = true) ->
  exists r, get_time_series w (t_first :: i1) (i2 ++ [t_last]) times values = Ok r /\
  Forall2 (fun t p => fst p = get 0%Z times t /\ val S (snd p) = val S (whole_sum H W (get [] values t) w))
    (filter (fun t => (t_first <? get 0%Z times t) && (get 0%Z times t <? t_last))%Z (seq 0 (length times))) r.
Proof.
  intros Mw Lv Mv NN (pi & pj & Hpi & Hpj & Hp). unfold get_time_series. rewrite rev_app_distr. cbn [rev app].
  set (pos := where_positive w). destruct Mw as [Lw Rw].
  assert (PI : forall i j, In (i, j) pos <-> i < H /\ j < W /\ n_ltb zero (at2 w i j) = true).
  { intros i j. unfold pos. rewrite where_positive_In, Lw. split; intros (A1 & A2 & A3); rewrite Rw in * by auto; auto. }
  assert (NE : In (pi, pj) pos) by (apply PI; auto).
  assert (N1 : map snd pos <> []) by (intros E; apply (in_map snd) in NE; rewrite E in NE; destruct NE).
  assert (N2 : map fst pos <> []) by (intros E; apply (in_map fst) in NE; rewrite E in NE; destruct NE).
  destruct (nat_min_ok _ N1) as [x0 X0], (nat_max_ok _ N1) as [x1 X1], (nat_min_ok _ N2) as [y0 Y0], (nat_max_ok _ N2) as [y1 Y1].
  rewrite X0, X1, Y0, Y1. cbn [bind]. apply nat_min_spec in X0 as [X0 X0'], Y0 as [Y0 Y0']. apply nat_max_spec in X1 as [X1 X1'], Y1 as [Y1 Y1'].
  eexists; split; [reflexivity|]. rewrite (where_map_seq 0%Z). set (idx := filter _ _).
  assert (HI : forall t, In t idx -> t < length times) by (intros t Ht; apply filter_In in Ht as [Ht _]; apply in_seq in Ht; lia). clearbody idx.
  assert (Hx1 : x1 < W). { apply in_map_iff in X1 as ([i j] & <- & P). apply PI in P. cbn. lia. }
  assert (Hy1 : y1 < H). { apply in_map_iff in Y1 as ([i j] & <- & P). apply PI in P. cbn. lia. }
  assert (Hx : x0 <= x1) by (apply X1'; auto). assert (Hy : y0 <= y1) by (apply Y1'; auto).
  induction idx as [|t idx IH]; [constructor|]. cbn [map]. constructor; [|apply IH; intros u Hu; apply HI; right; auto].
  cbn [fst snd]. split; auto. apply box_sum; auto; [apply Mv, HI; left; auto|split; auto|].
  intros i j Hi Hj P. assert (Q : In (i, j) pos) by (apply PI; auto). split; (split; [|]).
  - apply Y0'. apply (in_map fst) in Q. exact Q.
  - apply Y1'. apply (in_map fst) in Q. exact Q.
  - apply X0'. apply (in_map snd) in Q. exact Q.
  - apply X1'. apply (in_map snd) in Q. exact Q.
Qed.
Theorem time_series_no_weight (w : list (list O)) (i1 i2 : list Z) times values : i1 <> [] -> i2 <> [] ->
  (forall i j, i < length w -> j < length (get [] w i) -> n_ltb zero (at2 w i j) = false) -> get_time_series w i1 i2 times values = Err ValueError.
Proof.
  intros N1 N2 H. unfold get_time_series. destruct i1 as [|a i1]; [congruence|]. destruct (rev i2) as [|b r] eqn:E; [apply (f_equal (@rev Z)) in E; rewrite rev_involutive in E; cbn in E; congruence|].
  assert (P : where_positive w = []).
  { destruct (where_positive w) as [|[i j] l] eqn:Q; auto. exfalso. assert (I : In (i, j) (where_positive w)) by (rewrite Q; left; auto). apply where_positive_In in I as (A1 & A2 & A3). rewrite H in A3 by auto. discriminate. }
  rewrite P. reflexivity.
Qed.
Theorem time_series_no_data (w : list (list O)) (i1 i2 : list Z) times values : i1 = [] \/ i2 = [] -> get_time_series w i1 i2 times values = Err IndexError.
Proof. unfold get_time_series. intros [-> | ->]; auto. destruct i1; auto. Qed.
End P.
