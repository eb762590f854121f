(** * Results, list access and in-place update

    Python exceptions are values.  Arrays are lists: [get d a i] is [a[i]]
    for an index in range, [upd i v a] is [a[i] = v], [slice s e a] is
    [a[s:e]] for [0 <= s, e] (Python clips slices at the ends). *)
From Coq Require Import List Arith Lia Bool ZArith.
Import ListNotations.

Inductive exn : Type :=
| ValueError | TypeError | IndexError | KeyError | AssertionError
| AttributeError | NotImplementedError | ZeroDivisionError | RuntimeError
| ImportError | FileNotFoundError | OtherError.

Inductive res (A : Type) : Type :=
| Ok (a : A)
| Err (e : exn).
Arguments Ok {A} _.
Arguments Err {A} _.

Definition bind {A B} (m : res A) (f : A -> res B) : res B :=
  match m with Ok a => f a | Err e => Err e end.
Notation "'do' x <- m ; f" := (bind m (fun x => f))
  (at level 200, x binder, m at level 100, f at level 200, right associativity).

Fixpoint upd {A} (i : nat) (v : A) (l : list A) : list A :=
  match l, i with
  | [], _ => []
  | _ :: t, O => v :: t
  | h :: t, S j => h :: upd j v t
  end.

Definition get {A} (d : A) (l : list A) (i : nat) : A := nth i l d.

Definition slice {A} (s e : nat) (l : list A) : list A := firstn (e - s) (skipn s l).

(** Writing the list [vs] at positions [s, s+1, ...] (numpy slice assignment
    [a[s:s+len(vs)] = vs]). *)
Fixpoint upd_slice {A} (s : nat) (vs : list A) (l : list A) : list A :=
  match vs with
  | [] => l
  | v :: t => upd_slice (S s) t (upd s v l)
  end.

(** [for i in range(s, s+n): st = body(i, st)] *)
Definition for_range {S} (s n : nat) (body : nat -> S -> S) (st : S) : S :=
  fold_left (fun acc i => body i acc) (seq s n) st.

(** The same loop when the body may raise. *)
Fixpoint for_range_res {S} (idx : list nat) (body : nat -> S -> res S) (st : S) : res S :=
  match idx with
  | [] => Ok st
  | i :: t => do st' <- body i st; for_range_res t body st'
  end.

Lemma upd_length {A} i (v : A) l : length (upd i v l) = length l.
Proof. revert i; induction l; intros [|i]; simpl; auto. Qed.

Lemma get_upd_eq {A} (d : A) i v l : i < length l -> get d (upd i v l) i = v.
Proof.
  unfold get; revert i; induction l; intros [|i]; simpl; intros; try lia; auto.
  apply IHl; lia.
Qed.

Lemma get_upd_neq {A} (d : A) i j v l : i <> j -> get d (upd i v l) j = get d l j.
Proof.
  unfold get; revert i j; induction l; intros [|i] [|j]; simpl; intros; try lia; auto.
Qed.

Lemma get_upd {A} (d : A) i j v l :
  i < length l -> get d (upd i v l) j = if Nat.eqb i j then v else get d l j.
Proof.
  intros; destruct (Nat.eqb_spec i j).
  - subst; apply get_upd_eq; auto.
  - apply get_upd_neq; auto.
Qed.

Lemma upd_slice_length {A} s (vs l : list A) : length (upd_slice s vs l) = length l.
Proof.
  revert s l; induction vs; simpl; intros; auto. rewrite IHvs, upd_length; auto.
Qed.

Lemma get_upd_slice_out {A} (d : A) s vs l j :
  (j < s \/ s + length vs <= j) -> get d (upd_slice s vs l) j = get d l j.
Proof.
  revert s l; induction vs; simpl; intros; auto.
  rewrite IHvs by lia. apply get_upd_neq; lia.
Qed.

Lemma get_upd_slice_in {A} (d : A) s vs l j :
  s <= j < s + length vs -> s + length vs <= length l ->
  get d (upd_slice s vs l) j = get d vs (j - s).
Proof.
  revert s l; induction vs; simpl; intros; try lia.
  destruct (Nat.eq_dec j s).
  - subst. rewrite Nat.sub_diag. rewrite get_upd_slice_out by lia.
    rewrite get_upd_eq by lia; reflexivity.
  - rewrite IHvs; rewrite ?upd_length; try lia.
    replace (j - s) with (S (j - S s)) by lia. reflexivity.
Qed.

Lemma get_ext {A} (d : A) l1 l2 :
  length l1 = length l2 -> (forall i, i < length l1 -> get d l1 i = get d l2 i) -> l1 = l2.
Proof. intros; apply nth_ext with d d; auto. Qed.

Lemma get_default_indep {A} (d d' : A) l i : i < length l -> get d l i = get d' l i.
Proof. intros; apply nth_indep; auto. Qed.

Lemma nth_firstn_lt {A} (d : A) n l i : i < n -> nth i (firstn n l) d = nth i l d.
Proof.
  revert n i; induction l; intros [|n] [|i]; simpl; intros; auto; try lia.
  apply IHl; lia.
Qed.

Lemma nth_skipn_plus {A} (d : A) n l i : nth i (skipn n l) d = nth (n + i) l d.
Proof.
  revert n; induction l; intros [|n]; simpl; auto; destruct i; auto.
Qed.

Lemma slice_length {A} s e (l : list A) : e <= length l -> length (slice s e l) = e - s.
Proof. intros; unfold slice; rewrite firstn_length, skipn_length; lia. Qed.

Lemma get_slice {A} (d : A) s e l i : i < e - s -> get d (slice s e l) i = get d l (s + i).
Proof.
  intros; unfold get, slice. rewrite nth_firstn_lt by auto. apply nth_skipn_plus.
Qed.

Lemma get_map {A B} (f : A -> B) d d' l i :
  i < length l -> get d' (map f l) i = f (get d l i).
Proof.
  intros; unfold get. rewrite nth_indep with (d' := f d) by (rewrite map_length; auto).
  apply map_nth.
Qed.

Lemma get_map_seq {B} (f : nat -> B) d' n i : i < n -> get d' (map f (seq 0 n)) i = f i.
Proof.
  intros. rewrite get_map with (d := 0) by (rewrite seq_length; auto).
  unfold get; rewrite seq_nth by auto; auto.
Qed.

Lemma get_In {A} (d : A) l i : i < length l -> In (get d l i) l.
Proof. intros; apply nth_In; auto. Qed.

Lemma In_get {A} (d : A) l x : In x l -> exists i, i < length l /\ get d l i = x.
Proof. intros; destruct (In_nth l x d H) as (i & ? & ?); eauto. Qed.

Lemma for_range_S {S} s n (body : nat -> S -> S) st :
  for_range s (Datatypes.S n) body st = body (s + n) (for_range s n body st).
Proof.
  unfold for_range. rewrite seq_S, fold_left_app. reflexivity.
Qed.

(** Loop invariant rule. *)
Lemma for_range_inv {S} (P : nat -> S -> Prop) s n (body : nat -> S -> S) st :
  P s st ->
  (forall i st, s <= i < s + n -> P i st -> P (Datatypes.S i) (body i st)) ->
  P (s + n) (for_range s n body st).
Proof.
  intros H0 Hs. induction n.
  - rewrite Nat.add_0_r; exact H0.
  - rewrite for_range_S. rewrite Nat.add_succ_r. apply Hs; [lia|].
    apply IHn. intros; apply Hs; auto; lia.
Qed.

Lemma for_range_res_inv {S} (P : nat -> S -> Prop) n : forall s (body : nat -> S -> res S) st,
  P s st ->
  (forall i st, s <= i < s + n -> P i st -> exists st', body i st = Ok st' /\ P (Datatypes.S i) st') ->
  exists st', for_range_res (seq s n) body st = Ok st' /\ P (s + n) st'.
Proof.
  induction n; intros s body st H0 Hs; simpl.
  - exists st; rewrite Nat.add_0_r; auto.
  - destruct (Hs s st) as (st1 & E1 & P1); [lia|auto|].
    rewrite E1; simpl.
    destruct (IHn (Datatypes.S s) body st1) as (st2 & E2 & P2); auto.
    { intros; apply Hs; auto; lia. }
    exists st2; split; auto. rewrite <- Nat.add_succ_comm; auto.
Qed.

Lemma seq_split n s k : k <= n -> seq s n = seq s k ++ seq (s + k) (n - k).
Proof.
  intros. rewrite <- seq_app. f_equal; lia.
Qed.

Lemma Forall_get {A} (d : A) (P : A -> Prop) l :
  Forall P l <-> (forall i, i < length l -> P (get d l i)).
Proof.
  rewrite Forall_nth. split; intros H; intros.
  - apply H; auto.
  - rewrite nth_indep with (d' := d) by auto. apply H; auto.
Qed.

Definition map2 {A B C} (f : A -> B -> C) (l1 : list A) (l2 : list B) : list C :=
  map (fun p => f (fst p) (snd p)) (combine l1 l2).

Lemma map2_length {A B C} (f : A -> B -> C) l1 l2 :
  length l1 = length l2 -> length (map2 f l1 l2) = length l1.
Proof. intros; unfold map2; rewrite map_length, combine_length; lia. Qed.

Lemma get_map2 {A B C} (f : A -> B -> C) da db dc l1 l2 i :
  length l1 = length l2 -> i < length l1 ->
  get dc (map2 f l1 l2) i = f (get da l1 i) (get db l2 i).
Proof.
  intros; unfold map2. rewrite get_map with (d := (da, db)).
  - unfold get; rewrite combine_nth by auto. reflexivity.
  - rewrite combine_length; lia.
Qed.

(** For refutations by a concrete run: [check] is computed, the array is not normalised. *)
Lemma ok_check {A} (m : res A) (check : A -> bool) :
  match m with Ok a => check a | Err _ => false end = true -> exists a, m = Ok a /\ check a = true.
Proof. destruct m; intros; [eauto|discriminate]. Qed.

Lemma get_repeat {A} (d x : A) n i : i < n -> get d (repeat x n) i = x.
Proof.
  intros. rewrite get_default_indep with (d' := x) by (rewrite repeat_length; auto).
  apply nth_repeat.
Qed.

Lemma filter_length_bound {A} (f : A -> bool) l : length (filter f l) <= length l.
Proof. induction l; simpl; auto. destruct (f a); simpl; lia. Qed.
