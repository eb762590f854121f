(** * numpy array operations used by the models *)
From Coq Require Import List ZArith Bool Lia Arith.
From Verif Require Import Base Num NumList.
Import ListNotations.

(** Binary ufunc on two 1-D arrays with numpy broadcasting: equal lengths, or
    one of them has length 1; anything else is a ValueError. *)
Definition bcast2 {A B C} (f : A -> B -> C) (l1 : list A) (l2 : list B) : res (list C) :=
  if Nat.eqb (length l1) (length l2) then Ok (map2 f l1 l2)
  else match l1, l2 with
       | [x], _ => Ok (map (f x) l2)
       | _, [y] => Ok (map (fun x => f x y) l1)
       | _, _ => Err ValueError
       end.

(** positions where a boolean mask is true *)
Definition where_true (mask : list bool) : list nat :=
  filter (fun i => get false mask i) (seq 0 (length mask)).

(** [a[mask]] *)
Definition mask_select {A} (d : A) (mask : list bool) (a : list A) : list A :=
  map (get d a) (where_true mask).

(** [a[idx] = vals] for equally many values *)
Fixpoint scatter {A} (idx : list nat) (vals : list A) (a : list A) : list A :=
  match idx, vals with
  | i :: idx', v :: vals' => scatter idx' vals' (upd i v a)
  | _, _ => a
  end.

(** [a[mask] = vals]: as many values as true positions, or a single value;
    otherwise ValueError. *)
Definition mask_assign {A} (mask : list bool) (vals : list A) (a : list A) : res (list A) :=
  let idx := where_true mask in
  if Nat.eqb (length vals) (length idx) then Ok (scatter idx vals a)
  else match vals with
       | [v] => Ok (scatter idx (repeat v (length idx)) a)
       | _ => Err ValueError
       end.

(** [a[mask] = v] for a scalar *)
Definition mask_fill {A} (mask : list bool) (v : A) (a : list A) : list A :=
  map2 (fun (m : bool) x => if m then v else x) mask a.

Section Np.
Context {O : numops}.
(** [np.min] / [np.max]: NaN if any element is NaN; ValueError when empty. *)
Definition np_fold (lt : O -> O -> bool) (x : O) (l : list O) : O :=
  fold_left (fun acc v => if n_isnan acc then acc else if n_isnan v then v else if lt v acc then v else acc) l x.
Definition np_min (l : list O) : res O :=
  match l with [] => Err ValueError | x :: t => Ok (np_fold n_ltb x t) end.
Definition np_max (l : list O) : res O :=
  match l with [] => Err ValueError | x :: t => Ok (np_fold (fun v acc => n_ltb acc v) x t) end.
End Np.

(** ** Lemmas *)
Lemma where_true_In mask i : In i (where_true mask) <-> i < length mask /\ get false mask i = true.
Proof. unfold where_true. rewrite filter_In, in_seq. intuition lia. Qed.

Lemma where_true_NoDup mask : NoDup (where_true mask).
Proof. apply NoDup_filter, seq_NoDup. Qed.

Lemma scatter_length {A} idx (vals a : list A) : length (scatter idx vals a) = length a.
Proof.
  revert vals a; induction idx; intros [|v vals] a'; simpl; auto.
  rewrite IHidx, upd_length; auto.
Qed.

Lemma scatter_out {A} (d : A) idx vals a i : ~ In i idx -> get d (scatter idx vals a) i = get d a i.
Proof.
  revert vals a; induction idx; intros [|v vals] a' H; simpl in *; auto.
  rewrite IHidx by tauto. apply get_upd_neq. intros ->; tauto.
Qed.

Lemma scatter_in {A} (d : A) idx vals a k :
  NoDup idx -> length vals = length idx -> (forall i, In i idx -> i < length a) ->
  k < length idx ->
  get d (scatter idx vals a) (get 0 idx k) = get d vals k.
Proof.
  revert vals a k; induction idx as [|i idx IH]; intros [|v vals] a k ND L B K; simpl in *; try lia.
  inversion ND; subst. destruct k as [|k].
  - change (get 0 (i :: idx) 0) with i. change (get d (v :: vals) 0) with v.
    rewrite scatter_out by auto. apply get_upd_eq. auto.
  - change (get 0 (i :: idx) (S k)) with (get 0 idx k). change (get d (v :: vals) (S k)) with (get d vals k).
    apply IH; auto; try lia. intros j Hj. rewrite upd_length; auto.
Qed.

(** masked elementwise update: [a[mask] = f(b[mask])] *)
Lemma scatter_select {A B} (d : A) (db : B) mask (f : B -> A) b (a : list A) i :
  length mask = length a -> i < length a ->
  get d (scatter (where_true mask) (map f (mask_select db mask b)) a) i =
  if get false mask i then f (get db b i) else get d a i.
Proof.
  intros L Hi. destruct (get false mask i) eqn:E.
  - assert (I : In i (where_true mask)) by (apply where_true_In; split; [lia|auto]).
    destruct (In_get 0 _ _ I) as (k & Hk & Ek). rewrite <- Ek.
    rewrite scatter_in; auto.
    + unfold mask_select. rewrite map_map. rewrite get_map with (d := 0) by auto. reflexivity.
    + apply where_true_NoDup.
    + unfold mask_select. rewrite !map_length; auto.
    + intros j Hj. apply where_true_In in Hj. lia.
  - apply scatter_out. rewrite where_true_In. intros [_ H]; congruence.
Qed.

Lemma mask_select_length {A} (d : A) mask a : length (mask_select d mask a) = length (where_true mask).
Proof. apply map_length. Qed.

Lemma mask_fill_length {A} mask (v : A) a : length mask = length a -> length (mask_fill mask v a) = length a.
Proof. intros; unfold mask_fill. rewrite map2_length; auto. Qed.

Lemma mask_fill_get {A} (d : A) mask v a i : length mask = length a -> i < length a ->
  get d (mask_fill mask v a) i = if get false mask i then v else get d a i.
Proof. intros; unfold mask_fill. rewrite get_map2 with (da := false) (db := d) by lia. reflexivity. Qed.
