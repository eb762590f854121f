(** * Proofs about IDW: call histories *)
From Coq Require Import List ZArith Bool Lia Arith.
From Verif Require Import Base Num NumF64 NumList NpOps Libm RealSpec Idw_model Idw_spec Idw_proofs.
Import ListNotations.
Local Open Scope nat_scope.

Section Hist.
Context {O : numops} (S : numsem O) (L : libm O).
Variable query : list (O * O) -> O * O -> nat -> O -> option O -> list (O * nat).
Hypothesis RQ : query_respects query.
Notation pt := (O * O)%type.

Lemma eqb_finite (x y : O) : n_eqb x y = true -> n_isnan x = n_isnan y /\ n_isinf x = n_isinf y.
Proof.
  rewrite (val_eqb _ S), !(val_isnan _ S), !(val_isinf _ S). intros H.
  destruct (val S x), (val S y); try discriminate H; simpl; auto.
Qed.
Lemma eqb_refl_finite (x : O) : n_isnan x = false -> n_eqb x x = true.
Proof.
  rewrite (val_eqb _ S), (val_isnan _ S). destruct (val S x); simpl; try discriminate; auto.
  intros _. apply Flocq.Core.Raux.Req_bool_true. reflexivity.
Qed.

Lemma array_equal_cons (x : O) a y b : array_equal (x :: a) (y :: b) = n_eqb x y && array_equal a b.
Proof. unfold array_equal. simpl. destruct (n_eqb x y), (Nat.eqb (length a) (length b)); simpl; auto. Qed.
Lemma array_equal_length (a b : list O) : array_equal a b = true -> length a = length b.
Proof. unfold array_equal. intros H. apply andb_prop in H. apply Nat.eqb_eq. tauto. Qed.
Lemma pts_equal_length (a b : list pt) : pts_equal a b = true -> length a = length b.
Proof. unfold pts_equal. intros H. apply andb_prop in H. destruct H as [H _]. apply array_equal_length in H. rewrite !map_length in H. auto. Qed.
Lemma pts_equal_cons (x : pt) a y b : pts_equal (x :: a) (y :: b) = true <-> pts_equal [x] [y] = true /\ pts_equal a b = true.
Proof.
  unfold pts_equal. cbn [map]. rewrite !array_equal_cons. unfold array_equal at 3 4. cbn.
  rewrite !andb_true_iff. tauto.
Qed.
Lemma pts_equal_finite (a : list pt) : forall b, pts_equal a b = true -> forallb finite_pt a = forallb finite_pt b.
Proof.
  induction a as [|x a IH]; intros [|y b] H; auto; try (apply pts_equal_length in H; discriminate).
  apply pts_equal_cons in H. destruct H as [Hx H]. cbn [forallb]. rewrite (IH b H). f_equal.
  unfold pts_equal in Hx. cbn [map] in Hx. rewrite !array_equal_cons in Hx. cbn in Hx. rewrite !andb_true_r in Hx.
  apply andb_prop in Hx. destruct Hx as [H1 H2]. unfold finite_pt.
  destruct (eqb_finite _ _ H1) as [-> ->], (eqb_finite _ _ H2) as [-> ->]. reflexivity.
Qed.
Lemma pts_equal_refl (a : list pt) : forallb finite_pt a = true -> pts_equal a a = true.
Proof.
  induction a as [|x a IH]; intros H; auto. cbn [forallb] in H. apply andb_prop in H. destruct H as [Hx H].
  apply pts_equal_cons. split; auto. unfold pts_equal. cbn [map]. rewrite !array_equal_cons. cbn. rewrite !andb_true_r.
  unfold finite_pt in Hx. apply andb_prop in Hx. destruct Hx as [H1 H2].
  rewrite !eqb_refl_finite; auto; [destruct (n_isnan (snd x))|destruct (n_isnan (fst x))]; auto; discriminate.
Qed.
Lemma query_pts X X' k eps eps' md a : forall b, pts_equal X X' = true -> eps = eps' \/ n_eqb eps eps' = true -> pts_equal a b = true ->
  map (fun x => query X x k eps md) a = map (fun x => query X' x k eps' md) b.
Proof.
  induction a as [|x a IH]; intros [|y b] HX He H; auto; try (apply pts_equal_length in H; discriminate).
  apply pts_equal_cons in H. destruct H as [Hx H]. cbn [map]. f_equal; [|apply IH; auto]. apply RQ; auto.
Qed.

(** ** one Invdisttree *)
Definition tree_inv (md : option O) (t : tree O) : Prop :=
  forallb finite_pt (pts t) = true /\
  match cache t with
  | None => True
  | Some (q, k, eps, rows) => q <> [] /\ forallb finite_pt q = true /\ rows = map (fun x => query (pts t) x k eps md) q
  end.

(** a call on [t] and on an empty-cache tree over equal points *)
Lemma tree_call_inv md t t0 a : tree_inv md t -> cache t0 = None -> pts_equal (pts t0) (pts t) = true ->
  let '(t', r) := call_tree L query md t a in
  r = snd (call_tree L query md t0 a) /\ tree_inv md t' /\ pts t' = pts t.
Proof.
  intros [HF HI] C0 HP. unfold call_tree, tree_call. rewrite C0.
  rewrite (pts_equal_length _ _ HP).
  destruct (negb (Nat.eqb (length (pts t)) (length (a_z a)))); [cbn [snd]; repeat split; auto|].
  destruct (Nat.leb (a_nnear a) 1); [cbn [snd]; repeat split; auto|].
  destruct (match cache t with Some _ => _ | None => None end) as [rows|] eqn:EH.
  - destruct (cache t) as [[[[q0 k0] e0] r0]|] eqn:EC; [|discriminate].
    destruct (pts_equal (a_q a) q0 && Nat.eqb (a_nnear a) k0 && n_eqb (a_eps a) e0) eqn:EB; [|discriminate].
    injection EH as <-. apply andb_prop in EB. destruct EB as [EB E3]. apply andb_prop in EB. destruct EB as [E1 E2].
    apply Nat.eqb_eq in E2. subst k0. destruct HI as (Hn & Hf & ->).
    rewrite (pts_equal_finite _ _ E1), Hf. destruct (a_q a) as [|x q] eqn:EQ.
    + apply pts_equal_length in E1. destruct q0; [congruence|discriminate].
    + rewrite <- EQ in *. cbn [snd]. split; [|split; auto].
      * do 2 f_equal. symmetry. apply query_pts; auto.
      * split; auto. rewrite EC. auto.
  - destruct (a_q a) as [|x q] eqn:EQ; [cbn [snd]; repeat split; auto|]. rewrite <- EQ.
    destruct (forallb finite_pt (a_q a)) eqn:EF; [|cbn [snd]; repeat split; auto].
    cbn [snd pts]. split; [|split; auto].
    + do 2 f_equal. symmetry. apply query_pts; auto. apply pts_equal_refl; auto.
    + split; auto. cbn [cache]. split; [rewrite EQ; discriminate|auto].
Qed.

Lemma new_tree_inv X t md : new_tree X = Ok t -> tree_inv md t /\ cache t = None /\ pts t = X /\ X <> [].
Proof.
  unfold new_tree. destruct X as [|x X]; [discriminate|]. destruct (forallb finite_pt (x :: X)) eqn:E; [|discriminate].
  intros H. injection H as <-. repeat split; auto. discriminate.
Qed.

Lemma tree_history_from md t0 l : forall t, tree_inv md t -> cache t0 = None -> pts t = pts t0 ->
  tree_history L query md t l = map (fun a => snd (call_tree L query md t0 a)) l.
Proof.
  induction l as [|a l IH]; intros t I C P; auto. cbn [tree_history map].
  pose proof (tree_call_inv md t t0 a I C) as H.
  rewrite <- P in H. specialize (H (pts_equal_refl _ (proj1 I))).
  destruct (call_tree L query md t a) as [t' r]. destruct H as (-> & I' & P'). f_equal. apply IH; auto. congruence.
Qed.

Lemma tree_history_fresh md X t0 l : new_tree X = Ok t0 ->
  tree_history L query md t0 l = map (fun a => snd (call_tree L query md t0 a)) l.
Proof. intros H. destruct (new_tree_inv X t0 md H) as (I & C & P & _). apply tree_history_from; auto. Qed.

(** what a successful first call leaves behind *)
Lemma first_call X t0 q z k (eps : O) p md t1 v : new_tree X = Ok t0 -> tree_call L query t0 q z k eps p md = (t1, Ok v) ->
  pts t1 = pts t0 /\ forallb finite_pt q = true /\ q <> [] /\ 2 <= k /\
  cache t1 = Some (q, k, eps, map (fun x => query (pts t0) x k eps md) q).
Proof.
  intros H E. destruct (new_tree_inv X t0 md H) as (_ & C & _). unfold tree_call in E. rewrite C in E.
  destruct (negb (Nat.eqb (length (pts t0)) (length z))); [discriminate|].
  destruct (Nat.leb_spec k 1) as [Hk|Hk]; [discriminate|].
  destruct q as [|x q]; [discriminate|]. destruct (forallb finite_pt (x :: q)) eqn:EF; [|discriminate].
  injection E as <- _. cbn [pts cache]. repeat split; auto; discriminate.
Qed.

Lemma stale_call X t0 q z k (eps : O) p md t1 v : new_tree X = Ok t0 -> n_isnan eps = false ->
  tree_call L query t0 q z k eps p md = (t1, Ok v) ->
  forall q' t, forallb finite_pt q' = true -> pts t = pts t0 -> cache t = Some (q', k, eps, map (fun x => query (pts t0) x k eps md) q) ->
  forall z' p' md', snd (tree_call L query t q' z' k eps p' md') = snd (tree_call L query t0 q z' k eps p' md).
Proof.
  intros H He E q' t Hq' HP HC z' p' md'. destruct (first_call _ _ _ _ _ _ _ _ _ _ H E) as (P & F & Hn & Hk & C1).
  destruct (new_tree_inv X t0 md H) as (_ & C & _). unfold tree_call. rewrite C, HP, HC.
  destruct (negb (Nat.eqb (length (pts t0)) (length z'))); auto.
  destruct (Nat.leb_spec k 1); [lia|]. rewrite pts_equal_refl by auto. rewrite Nat.eqb_refl, eqb_refl_finite by auto. cbn [andb].
  rewrite F. destruct q as [|x q]; [congruence|]. reflexivity.
Qed.

Lemma stale_max_distance X t0 q z k (eps : O) p md t1 v : new_tree X = Ok t0 -> n_isnan eps = false ->
  tree_call L query t0 q z k eps p md = (t1, Ok v) ->
  forall z' p' md', snd (tree_call L query t1 q z' k eps p' md') = snd (tree_call L query t0 q z' k eps p' md).
Proof.
  intros H He E z' p' md'. destruct (first_call _ _ _ _ _ _ _ _ _ _ H E) as (P & F & Hn & Hk & C1).
  eapply stale_call; eauto.
Qed.

Lemma stale_overwrite X t0 q z k (eps : O) p md t1 v : new_tree X = Ok t0 -> n_isnan eps = false ->
  tree_call L query t0 q z k eps p md = (t1, Ok v) ->
  forall q' z' p' md', forallb finite_pt q' = true ->
  snd (tree_call L query (overwrite_q t1 q') q' z' k eps p' md') = snd (tree_call L query t0 q z' k eps p' md).
Proof.
  intros H He E q' z' p' md' Hq'. destruct (first_call _ _ _ _ _ _ _ _ _ _ H E) as (P & F & Hn & Hk & C1).
  eapply stale_call; eauto; unfold overwrite_q; rewrite C1; auto.
Qed.

(** ** the interpolator *)
Definition interp_inv (c : settings O) (s : interp O) : Prop :=
  conf s = c /\
  match built s with
  | None => True
  | Some (x, y, t) => length x = length y /\ pts t = combine x y /\ combine x y <> [] /\ tree_inv (cf_max_distance c) t
  end.

Lemma combine_equal (x : list O) : forall y x0 y0, length x = length y -> length x0 = length y0 ->
  array_equal x x0 = true -> array_equal y y0 = true -> pts_equal (combine x y) (combine x0 y0) = true.
Proof.
  induction x as [|a x IH]; intros [|b y] [|a0 x0] [|b0 y0] L1 L2 E1 E2; try discriminate; auto.
  rewrite array_equal_cons in E1, E2. apply andb_prop in E1, E2. destruct E1 as [Ea E1], E2 as [Eb E2].
  cbn [combine]. apply pts_equal_cons. split; [|apply IH; simpl in *; auto; lia].
  unfold pts_equal. cbn [map fst snd]. rewrite !array_equal_cons, Ea, Eb. reflexivity.
Qed.

Lemma eqb_zero : n_eqb (zero : O) zero = true.
Proof. apply eqb_refl_finite. apply (isnan_ofZ S). simpl; lia. Qed.

Lemma interpol_inv c s x y z xi yi : interp_inv c s -> length x = length y -> length y = length z ->
  let '(s', r) := interpol_func L query s x y z xi yi in
  r = snd (interpol_func L query (new_interp c) x y z xi yi) /\ interp_inv c s'.
Proof.
  intros [HC HB] L1 L2. unfold interpol_func. rewrite HC. cbn [new_interp conf built]. cbv zeta.
  set (sel := fun l : list O => if cf_exclude_nan c then mask_select n_nan (map (fun v => negb (n_isnan v)) z) l else l).
  assert (LS : length (sel x) = length (sel y)).
  { unfold sel. destruct (cf_exclude_nan c); auto. rewrite !mask_select_length. auto. }
  fold (sel x) (sel y) (sel z). generalize dependent (sel x). generalize (sel y) (sel z). clear sel L1 L2 x y z.
  intros y z x LS.
  set (fresh := do t <- new_tree (combine x y); Ok (x, y, t)).
  set (a := {| a_q := combine xi yi; a_z := z; a_nnear := cf_nnear c; a_eps := zero; a_p := cf_p c |}).
  assert (MISS : let '(s', r) := match fresh with
      | Ok (x1, y1, t) => let '(t', r) := tree_call L query t (combine xi yi) z (cf_nnear c) zero (cf_p c) (cf_max_distance c) in
          ({| conf := c; built := Some (x1, y1, t') |}, r)
      | Err e => (s, Err e) end in
    r = snd (match fresh with
      | Ok (x1, y1, t) => let '(t', r) := tree_call L query t (combine xi yi) z (cf_nnear c) zero (cf_p c) (cf_max_distance c) in
          ({| conf := c; built := Some (x1, y1, t') |}, r)
      | Err e => (new_interp c, Err e) end) /\ interp_inv c s').
  { unfold fresh. destruct (new_tree (combine x y)) as [t|e] eqn:ET; cbn [bind].
    - destruct (new_tree_inv _ _ (cf_max_distance c) ET) as (I & C & P & N).
      pose proof (tree_call_inv _ t t a I C (pts_equal_refl _ (proj1 I))) as H. unfold call_tree in H. cbn [a_q a_z a_nnear a_eps a_p a] in H.
      destruct (tree_call L query t (combine xi yi) z (cf_nnear c) zero (cf_p c) (cf_max_distance c)) as [t' r].
      destruct H as (_ & I' & P'). cbn [snd]. split; auto. split; auto. cbn [built]. split; [auto|split; [congruence|split; auto]].
    - cbn [snd]. split; auto. split; auto. }
  destruct (built s) as [[[x0 y0] t]|] eqn:EB; [|exact MISS].
  destruct (array_equal x x0 && array_equal y y0) eqn:EE; [|exact MISS]. clear MISS.
  apply andb_prop in EE. destruct EE as [E1 E2]. destruct HB as (L0 & P0 & N0 & I0).
  assert (EP : pts_equal (combine x y) (combine x0 y0) = true) by (apply combine_equal; auto).
  assert (ET : new_tree (combine x y) = Ok {| pts := combine x y; cache := None |}).
  { unfold new_tree. destruct (combine x y) as [|p l] eqn:EC.
    - apply pts_equal_length in EP. destruct (combine x0 y0); [congruence|discriminate].
    - rewrite (pts_equal_finite _ _ EP), <- P0, (proj1 I0). reflexivity. }
  unfold fresh. rewrite ET. cbn [bind].
  pose proof (tree_call_inv _ t {| pts := combine x y; cache := None |} a I0 eq_refl) as H. cbn [pts] in H. rewrite P0 in H. specialize (H EP).
  unfold call_tree in H. cbn [a_q a_z a_nnear a_eps a_p a] in H.
  destruct (tree_call L query t (combine xi yi) z (cf_nnear c) zero (cf_p c) (cf_max_distance c)) as [t' r].
  destruct (tree_call L query {| pts := combine x y; cache := None |} (combine xi yi) z (cf_nnear c) zero (cf_p c) (cf_max_distance c)) as [t2 r2].
  destruct H as (-> & I' & P'). cbn [snd]. split; auto. split; auto. cbn [built]. split; [auto|split; [congruence|split; auto]].
Qed.

Lemma interp_call_inv c s a : interp_inv c s ->
  let '(s', r) := call_interp L query s a in r = snd (call_interp L query (new_interp c) a) /\ interp_inv c s'.
Proof.
  intros I. unfold call_interp, interp_call.
  destruct (Nat.eqb_spec (length (g_x a)) (length (g_y a))) as [E1|]; [|cbn; auto].
  destruct (Nat.eqb_spec (length (g_y a)) (length (g_z a))) as [E2|]; [|cbn; auto]. cbn [andb negb].
  destruct (forallb n_isnan (g_z a)); [cbn; auto|].
  pose proof (interpol_inv c s (g_x a) (g_y a) (g_z a) (concat (g_xgrid a)) (concat (g_ygrid a)) I E1 E2) as H.
  destruct (interpol_func L query s _ _ _ _ _) as [s' r]. destruct (interpol_func L query (new_interp c) _ _ _ _ _) as [s2 r2].
  destruct H as [-> I']. cbn [snd]. auto.
Qed.

Lemma interp_history_fresh c l : cf_exclude_nan c = true \/ overwrites l = false -> forall s, interp_inv c s ->
  interp_history L query s l = map (fun a => snd (call_interp L query (new_interp c) a)) (calls l).
Proof.
  induction l as [|e l IH]; intros HO s I; auto. destruct e as [a|x y]; cbn [interp_history calls map].
  - pose proof (interp_call_inv c s a I) as H. destruct (call_interp L query s a) as [s' r]. destruct H as [-> I'].
    f_equal. apply IH; auto.
  - destruct HO as [HO|HO]; [|discriminate]. unfold overwrite_xy. rewrite (proj1 I), HO. apply IH; auto.
Qed.

(** with [exclude_nan=False], overwriting [x] and [y] in place and calling
    again keeps interpolating from the old coordinates *)
Lemma overwritten_xy c x y z rows cols xg yg s1 v : cf_exclude_nan c = false ->
  forallb n_isnan z = false -> interp_call L query (new_interp c) x y z rows cols xg yg = (s1, Ok v) ->
  forall x' y' z', all_finite x' -> all_finite y' -> length x' = length x -> length y' = length y -> length z' = length z -> forallb n_isnan z' = false ->
  snd (interp_call L query (overwrite_xy s1 x' y') x' y' z' rows cols xg yg) =
  snd (interp_call L query (new_interp c) x y z' rows cols xg yg).
Proof.
  intros HE HN HC x' y' z' Fx Fy Lx Ly Lz HN'. unfold interp_call in *. rewrite Lx, Ly, Lz.
  destruct (negb (Nat.eqb (length x) (length y) && Nat.eqb (length y) (length z))) eqn:EL; [discriminate|].
  rewrite HN in HC. rewrite HN'.
  assert (EL' : length x = length y).
  { destruct (Nat.eqb_spec (length x) (length y)); auto. discriminate. }
  assert (Q : forall l : list O, all_finite l -> array_equal l l = true).
  { intros l. induction l as [|u l IH]; intros F; auto. rewrite array_equal_cons, eqb_refl_finite by (apply F; left; auto). apply IH. intros w Hw. apply F; right; auto. }
  unfold interpol_func in HC |- *. cbn [new_interp conf built] in *. cbv zeta in *. rewrite HE in *.
  destruct (new_tree (combine x y)) as [t0|e] eqn:ET; cbn [bind] in *; [|discriminate].
  set (qq := combine (concat xg) (concat yg)) in *.
  destruct (tree_call L query t0 qq z (cf_nnear c) zero (cf_p c) (cf_max_distance c)) as [t1 r1] eqn:E1.
  destruct r1 as [v1|]; cbn [bind] in HC; [|discriminate]. injection HC as <- HC.
  unfold overwrite_xy. cbn [conf built]. rewrite HE. cbn [conf built]. rewrite HE. rewrite !Q by auto. cbn [andb].
  assert (HZ : n_isnan (zero : O) = false) by (apply (isnan_ofZ S); simpl; lia).
  pose proof (stale_max_distance _ _ _ _ _ _ _ _ _ _ ET HZ E1 z' (cf_p c) (cf_max_distance c)) as H.
  destruct (tree_call L query t1 qq z' (cf_nnear c) zero (cf_p c) (cf_max_distance c)) as [t2 r2].
  destruct (tree_call L query t0 qq z' (cf_nnear c) zero (cf_p c) (cf_max_distance c)) as [t3 r3].
  cbn [snd] in H. rewrite H. reflexivity.
Qed.
End Hist.
