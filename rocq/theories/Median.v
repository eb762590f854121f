(** * Median and rolling windows *)
From Coq Require Import List ZArith Bool Reals Lra Lia Arith Permutation.
From Flocq Require Import Core.Raux.
From Verif Require Import Base Num NumList RealSpec RealStat.
Import ListNotations.
Local Open Scope nat_scope.

Section Def.
Context {O : numops}.

Fixpoint insert (x : O) (l : list O) : list O :=
  match l with [] => [x] | h :: t => if n_leb x h then x :: l else h :: insert x t end.
Definition sort (l : list O) : list O := fold_right insert [] l.

(** [np.median] of NaN-free values, NaN for none *)
Definition middle (s : list O) : O :=
  let n := length s in
  if Nat.odd n then get n_nan s (n / 2)
  else if Nat.eqb n 0 then n_nan
  else n_div (n_add (get n_nan s (n / 2 - 1)) (get n_nan s (n / 2))) (n_ofZ 2).
Definition median (l : list O) : O := middle (sort l).

(** [np.nanmedian] *)
Definition not_nan (l : list O) : list O := filter (fun x => negb (n_isnan x)) l.

(** values of a trailing window of [w] steps ending at step [i], fewer at the start *)
Definition trailing (w i : nat) (l : list O) : list O := slice (i + 1 - w) (i + 1) l.

(** [da.rolling(time=w, min_periods=k).agg()] of a 1-D series: xarray rejects
    w = 0 and k = 0; bottleneck (a required dependency) rejects k > w and
    w > T.  NaNs are skipped; NaN if fewer than [k] values. *)
Definition rolling_ok (w k T : nat) : bool :=
  negb (Nat.eqb w 0 || Nat.eqb k 0 || Nat.ltb w k || Nat.ltb T w).
Definition rolling (agg : list O -> O) (w k : nat) (l : list O) : res (list O) :=
  if rolling_ok w k (length l)
  then Ok (map (fun i => let v := not_nan (trailing w i l) in
                         if Nat.ltb (length v) k then n_nan else agg v) (seq 0 (length l)))
  else Err ValueError.

(** Spec: [m] is the median of the elements of [l] *)
Definition is_median (l : list O) (m : O) : Prop :=
  exists s, Permutation s l /\ (forall i j, i <= j -> j < length s -> n_leb (get n_nan s i) (get n_nan s j) = true) /\
  (forall k, length s = 2 * k + 1 -> m = get n_nan s k) /\
  (forall k, length s = 2 * k + 2 -> m = n_div (n_add (get n_nan s k) (get n_nan s (k + 1))) (n_ofZ 2)).
End Def.

Section Sorted.
Context {O : numops} (S : numsem O).

Lemma rolling_ok_true w k T : rolling_ok w k T = true <-> 1 <= k <= w /\ w <= T.
Proof.
  unfold rolling_ok. destruct (Nat.eqb_spec w 0), (Nat.eqb_spec k 0), (Nat.ltb_spec w k), (Nat.ltb_spec T w); simpl; split; intros; try discriminate; try lia; auto.
Qed.

Lemma rolling_get agg w k (l : list O) : rolling_ok w k (length l) = true ->
  exists r, rolling agg w k l = Ok r /\ length r = length l /\ forall t, t < length l ->
    get n_nan r t = let v := not_nan (trailing w t l) in if Nat.ltb (length v) k then n_nan else agg v.
Proof.
  intros H. unfold rolling. rewrite H. eexists. split; [reflexivity|]. split; [rewrite map_length, seq_length; auto|].
  intros t Ht. rewrite get_map_seq by auto. reflexivity.
Qed.

Lemma insert_perm (x : O) l : Permutation (insert x l) (x :: l).
Proof.
  induction l as [|h t IH]; simpl; auto. destruct (n_leb x h); auto.
  apply perm_trans with (h :: x :: t); [constructor; auto|constructor].
Qed.

Lemma sort_perm (l : list O) : Permutation (sort l) l.
Proof.
  induction l as [|x l IH]; simpl; auto. apply perm_trans with (x :: sort l); [apply insert_perm|constructor; auto].
Qed.

Lemma sort_length (l : list O) : length (sort l) = length l.
Proof. apply Permutation_length, sort_perm. Qed.

Fixpoint ascending (l : list O) : Prop :=
  match l with [] => True | h :: t => (forall y, In y t -> n_leb h y = true) /\ ascending t end.

Lemma insert_ascending (x : O) l : n_isnan x = false -> (forall y, In y l -> n_isnan y = false) ->
  ascending l -> ascending (insert x l).
Proof.
  intros Hx. induction l as [|h t IH]; intros HN H; simpl.
  - split; [intros y []|exact I].
  - destruct (n_leb x h) eqn:E.
    + simpl. destruct H as [H1 H2]. split; [|split; auto]. intros y [<-|Hy]; auto. apply (leb_trans S) with h; auto.
    + simpl. destruct H as [H1 H2]. assert (HN' : forall y, In y t -> n_isnan y = false) by (intros; apply HN; right; auto). split.
      * intros y Hy. apply (Permutation_in _ (insert_perm x t)) in Hy. destruct Hy as [<-|Hy]; auto.
        pose proof (HN h (or_introl eq_refl)) as Hh.
        rewrite (val_leb _ S) in E |- *. rewrite (val_isnan _ S) in Hx, Hh.
        destruct (xleb_total (val S x) (val S h)); auto; congruence.
      * apply IH; auto.
Qed.

Lemma sort_ascending (l : list O) : (forall y, In y l -> n_isnan y = false) -> ascending (sort l).
Proof.
  induction l as [|x l IH]; intros H; simpl; auto.
  apply insert_ascending; [apply H; left; auto| |apply IH; intros; apply H; right; auto].
  intros y Hy. apply H. right. apply (Permutation_in _ (sort_perm l)); auto.
Qed.

Lemma ascending_get (l : list O) : ascending l -> (forall y, In y l -> n_isnan y = false) ->
  forall i j, i <= j -> j < length l -> n_leb (get n_nan l i) (get n_nan l j) = true.
Proof.
  induction l as [|h t IH]; intros H HN i j Hij Hj; [simpl in Hj; lia|]. destruct H as [H1 H2].
  destruct i as [|i], j as [|j]; try lia.
  - apply (leb_refl S). apply HN. left. auto.
  - change (get n_nan (h :: t) 0) with h. change (get n_nan (h :: t) (Datatypes.S j)) with (get n_nan t j).
    apply H1. apply get_In. simpl in Hj. lia.
  - change (get n_nan (h :: t) (Datatypes.S i)) with (get n_nan t i). change (get n_nan (h :: t) (Datatypes.S j)) with (get n_nan t j).
    apply IH; auto; [intros; apply HN; right; auto|lia|simpl in Hj; lia].
Qed.

Lemma median_is_median (l : list O) : (forall y, In y l -> n_isnan y = false) -> is_median l (median l).
Proof.
  intros H. exists (sort l). split; [apply sort_perm|]. split.
  - apply ascending_get; [apply sort_ascending; auto|]. intros y Hy. apply H, (Permutation_in _ (sort_perm l)); auto.
  - unfold median, middle. split; intros k E; rewrite E.
    + replace (Nat.odd (2 * k + 1)) with true.
      * f_equal. rewrite Nat.add_comm, Nat.mul_comm. rewrite Nat.div_add by lia. reflexivity.
      * symmetry. rewrite Nat.add_1_r, Nat.odd_succ. apply Nat.even_spec. exists k. reflexivity.
    + replace (Nat.odd (2 * k + 2)) with false.
      * destruct (Nat.eqb_spec (2 * k + 2) 0); [lia|].
        replace ((2 * k + 2) / 2) with (k + 1) by (replace (2 * k + 2) with ((k + 1) * 2) by lia; rewrite Nat.div_mul; lia).
        replace (k + 1 - 1) with k by lia. reflexivity.
      * symmetry. rewrite <- Nat.negb_even. apply negb_false_iff. apply Nat.even_spec. exists (k + 1). lia.
Qed.

Lemma not_nan_In (l : list O) y : In y (not_nan l) <-> In y l /\ n_isnan y = false.
Proof. unfold not_nan. rewrite filter_In. destruct (n_isnan y); intuition discriminate. Qed.
End Sorted.

(** exact arithmetic: a median lies between bounds of the data *)
Lemma median_range (l : list R) lo hi m : l <> [] -> (forall x, In x l -> (lo <= x <= hi)%R) ->
  is_median (ofR l) m -> exists r, m = (XFin r : XR) /\ (lo <= r <= hi)%R.
Proof.
  intros Hn H (s & P & _ & H1 & H2).
  assert (G : forall i, i < length s -> exists r, get (n_nan : XR) s i = (XFin r : XR) /\ (lo <= r <= hi)%R).
  { intros i Hi. assert (I : In (get (n_nan : XR) s i) (ofR l)) by (apply (Permutation_in _ P), get_In; auto).
    unfold ofR in I. apply in_map_iff in I as (r & E & Hr). exists r. split; auto. }
  assert (L : length s <> 0). { rewrite (Permutation_length P), ofR_length. destruct l; [congruence|simpl; lia]. }
  destruct (Nat.Even_or_Odd (length s)) as [[k E]|[k E]].
  - destruct (G (k - 1)) as (r1 & E1 & R1); [lia|]. destruct (G k) as (r2 & E2 & R2); [lia|].
    exists ((r1 + r2) / 2)%R. rewrite (H2 (k - 1)) by lia. replace (k - 1 + 1) with k by lia. rewrite E1, E2.
    change (n_div (n_add (XFin r1 : XR) (XFin r2 : XR)) (n_ofZ 2)) with (xdiv (XFin (r1 + r2)) (XFin 2) : XR).
    unfold xdiv. rewrite Req_bool_false by lra. split; [reflexivity|lra].
  - destruct (G k) as (r & Er & Rr); [lia|]. exists r. rewrite (H1 k) by lia. auto.
Qed.
