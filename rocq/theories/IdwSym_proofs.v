(** * Proofs about symmetries of inverse distance weighting *)
From Coq Require Import List ZArith Bool Reals Lra Lia Arith Permutation Sorted.
From Flocq Require Import Core.Raux.
From Verif Require Import Base Num NumF64 NumList NpOps Libm RealSpec RealStat KR_proofs Idw_model Idw_spec Idw_proofs.
Import ListNotations.
Local Open Scope nat_scope.

(** the neighbours used for query point [j] do not depend on values and exponent *)
Lemma tree_call_used query (X qs : list rpt) k ub t :
  query_ok query -> new_tree (map ofP X) = Ok t -> qs <> [] -> 2 <= k ->
  forall j, j < length qs -> exists used,
    is_nearest (dist_to X (get (0%R, 0%R) qs j)) (length X) k ub used /\
    forall z p v, length z = length X -> snd (tree_call XRm query t (map ofP qs) (ofR z) k zero (XFin p : XR) (ofU ub)) = Ok v ->
    length v = length qs /\ is_idw (dist_to X (get (0%R, 0%R) qs j)) z p used (get (n_nan : XR) v j).
Proof.
  intros Q HT Hq Hk j Hj. unfold new_tree in HT.
  assert (HX : map ofP X <> []) by (intros HX; rewrite HX in HT; discriminate HT).
  assert (t = {| pts := map ofP X; cache := None |}) as ->.
  { rewrite finite_ofP in HT. destruct (map ofP X); [congruence|]. injection HT; auto. }
  destruct (Q X (get (0%R, 0%R) qs j) k ub) as (used & pad & N & E). exists used. split; auto.
  intros z p v HZ HV. unfold tree_call in HV. cbn [pts cache] in HV. rewrite ofR_length, map_length, HZ, Nat.eqb_refl in HV. cbn [negb] in HV.
  destruct (Nat.leb_spec k 1); [lia|]. rewrite finite_ofP in HV.
  destruct (map ofP qs) as [|q0 ql] eqn:EQ; [destruct qs; [congruence|discriminate EQ]|]. rewrite <- EQ in HV. cbn [snd] in HV.
  injection HV as <-. unfold numba_idw_loop. rewrite !map_length. split; auto.
  rewrite get_map with (d := []) by (rewrite !map_length; auto).
  rewrite get_map with (d := ofP (0%R, 0%R)) by (rewrite !map_length; auto).
  rewrite get_map with (d := (0%R, 0%R)) by auto.
  match goal with |- context [query ?a ?b ?c ?d ?e] => change (query a b c d e) with (query (map ofP X) (ofP (get (0%R, 0%R) qs j)) k zero (ofU ub)) end. rewrite E, <- HZ. apply idw_exact.
  - intros i Hi. apply (nn_range _ _ _ _ _ N) in Hi. lia.
  - intros i Hi. apply In_get with (d := 0) in Hi. destruct Hi as (b & Hb & <-). apply (nn_sorted _ _ _ _ _ N); lia.
Qed.

(** ** affine changes of the values; order of the values *)
Lemma weights_pos (d : nat -> R) p l : l <> [] -> (0 < rsum (map (fun i => / Rpower (d i) p) l))%R.
Proof. intros H. apply rsum_pos; auto. intros; apply Rinv_0_lt_compat; unfold Rpower; apply exp_pos. Qed.
Lemma rsum_lin {A} (a b : R) (f g w : A -> R) l :
  rsum (map (fun i => (a * f i + b * g i) * w i)%R l) = (a * rsum (map (fun i => f i * w i)%R l) + b * rsum (map (fun i => g i * w i)%R l))%R.
Proof.
  induction l as [|x l IH]; cbn [map]; [unfold rsum; cbn; ring|].
  change (rsum (?x :: ?l)) with (x + rsum l)%R. cbn [rsum fold_right]. fold (rsum (map (fun i => (a * f i + b * g i) * w i)%R l)).
  fold (rsum (map (fun i => f i * w i)%R l)). fold (rsum (map (fun i => g i * w i)%R l)). rewrite IH. ring.
Qed.

Lemma idw_superposition d z1 z2 z3 p used v1 v2 v3 (a b : R) :
  (forall i, In i used -> rget z3 i = a * rget z1 i + b * rget z2 i)%R ->
  is_idw d z1 p used v1 -> is_idw d z2 p used v2 -> is_idw d z3 p used v3 ->
  v3 = n_add (n_mul (XFin a : XR) v1) (n_mul (XFin b : XR) v2).
Proof.
  intros H I1 I2 I3. destruct used as [|i0 u]; cbn [is_idw] in *; [subst; reflexivity|].
  destruct (Rlt_dec (d i0) (1 / 10000000000)).
  - subst. rewrite H by (left; auto). reflexivity.
  - destruct I1 as (r1 & -> & E1), I2 as (r2 & -> & E2), I3 as (r3 & -> & E3).
    pose proof (weights_pos d p (i0 :: u) ltac:(discriminate)) as W. set (us := i0 :: u) in *.
    change (n_add (n_mul (XFin a : XR) (XFin r1 : XR)) (n_mul (XFin b : XR) (XFin r2 : XR))) with (XFin (a * r1 + b * r2) : XR).
    refine (f_equal (XFin : R -> XR) _).
    apply Rmult_eq_reg_r with (rsum (map (fun i => / Rpower (d i) p)%R us)); [|lra].
    rewrite Rmult_plus_distr_r, !Rmult_assoc, E1, E2, E3, <- rsum_lin. apply rsum_map_ext. intros i Hi. rewrite H by auto. reflexivity.
Qed.
Lemma idw_const d z p used v (b : R) : (forall i, In i used -> rget z i = b) -> used <> [] -> is_idw d z p used v -> v = (XFin b : XR).
Proof.
  intros H Hn I. destruct (is_idw_bounds d z p used v b b Hn I) as (r & -> & B); [intros i Hi; rewrite (H i Hi); lra|].
  refine (f_equal (XFin : R -> XR) _). lra.
Qed.
Lemma idw_mono d z z' p used v v' : (forall i, In i used -> (rget z i <= rget z' i)%R) -> used <> [] ->
  is_idw d z p used v -> is_idw d z' p used v' -> n_leb v v' = true.
Proof.
  intros H Hn I I'. destruct used as [|i0 u]; [congruence|]. cbn [is_idw] in *.
  destruct (Rlt_dec (d i0) (1 / 10000000000)).
  - subst. change (xleb (XFin (rget z i0)) (XFin (rget z' i0)) = true). cbn. apply Rle_bool_true. apply H. left; auto.
  - destruct I as (r & -> & E), I' as (r' & -> & E'). change (xleb (XFin r) (XFin r') = true). cbn. apply Rle_bool_true.
    pose proof (weights_pos d p (i0 :: u) ltac:(discriminate)) as W. set (us := i0 :: u) in *.
    apply Rmult_le_reg_r with (rsum (map (fun i => / Rpower (d i) p)%R us)); auto. rewrite E, E'.
    assert (G : forall l, (forall i, In i l -> In i us) -> (rsum (map (fun i => rget z i * / Rpower (d i) p) l) <= rsum (map (fun i => rget z' i * / Rpower (d i) p) l))%R); [|apply G; auto].
    induction l as [|i l IH]; intros Hl; cbn [map rsum fold_right]; [lra|].
    apply Rplus_le_compat; [|apply IH; intros; apply Hl; right; auto].
    apply Rmult_le_compat_r; [apply Rlt_le, Rinv_0_lt_compat; unfold Rpower; apply exp_pos|apply H, Hl; left; auto].
Qed.

(** ** the used neighbours, as a list of (distance, value), are determined by
    the set of all pairs when no two stations are equally far *)
Definition strict (l : list (R * R)) : Prop := StronglySorted (fun a b => (fst a < fst b)%R) l.
Lemma strict_nodup l : strict l -> NoDup l.
Proof.
  induction 1 as [|a l H IH F]; constructor; auto. intros I. rewrite Forall_forall in F. apply F in I. lra.
Qed.
Lemma strict_unique l : forall l', strict l -> strict l' -> (forall e, In e l <-> In e l') -> l = l'.
Proof.
  induction l as [|a l IH]; intros [|b l'] S1 S2 H; auto.
  - exfalso. apply (H b). left; auto.
  - exfalso. apply (H a). left; auto.
  - inversion S1 as [|a1 l1 S1' F1]; subst. inversion S2 as [|b1 l2 S2' F2]; subst. rewrite Forall_forall in F1, F2.
    assert (a = b).
    { destruct (proj1 (H a) (or_introl eq_refl)) as [E|E]; auto. destruct (proj2 (H b) (or_introl eq_refl)) as [E'|E']; auto.
      apply F2 in E. apply F1 in E'. lra. }
    subst b. f_equal. apply IH; auto. intros e. split; intros He.
    + destruct (proj1 (H e) (or_intror He)) as [E|E]; auto. subst e. apply F1 in He. lra.
    + destruct (proj2 (H e) (or_intror He)) as [E|E]; auto. subst e. apply F2 in He. lra.
Qed.

Record selection (P : R * R -> Prop) (k : nat) (l : list (R * R)) : Prop := {
  se_strict : strict l; se_in : forall e, In e l -> P e; se_count : length l <= k;
  se_rest : forall e, P e -> ~ In e l -> length l = k /\ forall f, In f l -> (fst f <= fst e)%R }.
Lemma pair_dec (a b : R * R) : {a = b} + {a <> b}.
Proof. destruct a as [a1 a2], b as [b1 b2]. destruct (Req_EM_T a1 b1), (Req_EM_T a2 b2); subst; auto; right; congruence. Qed.
Lemma selection_sub (P : R * R -> Prop) k l l' : (forall e f, P e -> P f -> fst e = fst f -> e = f) -> selection P k l -> selection P k l' -> incl l l'.
Proof.
  intros HP A B e He. destruct (in_dec pair_dec e l') as [|NE]; auto. exfalso.
  destruct (se_rest _ _ _ B e (se_in _ _ _ A e He) NE) as [Lk F].
  assert (I : incl l' l).
  { intros f Hf. destruct (in_dec pair_dec f l) as [|NF]; auto. exfalso.
    destruct (se_rest _ _ _ A f (se_in _ _ _ B f Hf) NF) as [_ G]. pose proof (F f Hf). pose proof (G e He).
    assert (e = f) by (apply HP; [apply (se_in _ _ _ A); auto|apply (se_in _ _ _ B); auto|lra]). subst. auto. }
  assert (NoDup (e :: l')) by (constructor; auto; apply strict_nodup, (se_strict _ _ _ B)).
  assert (K : incl (e :: l') l) by (intros f [<-|Hf]; auto).
  pose proof (NoDup_incl_length H K) as LL. cbn [length] in LL. pose proof (se_count _ _ _ A). lia.
Qed.
Lemma selection_unique (P : R * R -> Prop) k l l' : (forall e f, P e -> P f -> fst e = fst f -> e = f) -> selection P k l -> selection P k l' -> l = l'.
Proof.
  intros HP A B. apply strict_unique; [apply (se_strict _ _ _ A)|apply (se_strict _ _ _ B)|].
  intros e. split; apply (selection_sub P k); auto.
Qed.

(** all pairs (distance, value) that are in range *)
Definition pairs (d : nat -> R) (z : list R) (n : nat) (ub : option R) (e : R * R) : Prop :=
  exists i, i < n /\ in_range d ub i /\ e = (d i, rget z i).
Definition injective (d : nat -> R) (n : nat) : Prop := forall i j, i < n -> j < n -> d i = d j -> i = j.
Lemma skipn_get (l : list nat) : forall a b, get 0 (skipn a l) b = get 0 l (a + b).
Proof. induction l as [|x l IH]; intros a b; [destruct a, b; reflexivity|]. destruct a; [reflexivity|]. exact (IH a b). Qed.
Lemma nearest_selection d z n k ub used : injective d n -> is_nearest d n k ub used ->
  selection (pairs d z n ub) k (map (fun i => (d i, rget z i)) used).
Proof.
  intros HI [C1 C2 C3 C4 C5]. constructor.
  - unfold strict. assert (G : forall a, StronglySorted (fun x y => (fst x < fst y)%R) (map (fun i => (d i, rget z i)) (skipn a used))).
    { intros a. remember (length used - a) as m eqn:Em. revert a Em. induction m as [|m IH]; intros a Em.
      - rewrite skipn_all2 by lia. constructor.
      - assert (Ha : a < length used) by lia.
        assert (ES : skipn a used = get 0 used a :: skipn (S a) used).
        { clear - Ha. revert a Ha. induction used as [|x l IH]; intros a Ha; [cbn in Ha; lia|]. destruct a; auto. cbn in Ha. cbn [skipn]. rewrite IH by lia. reflexivity. }
        rewrite ES. cbn [map]. constructor; [apply IH; lia|]. rewrite Forall_forall. intros e He. apply in_map_iff in He. destruct He as (i & <- & Hi). cbn [fst].
        apply In_get with (d := 0) in Hi. destruct Hi as (b & Hb & <-). rewrite skipn_length in Hb.
        assert (EG : get 0 (skipn (S a) used) b = get 0 used (S a + b)).
        { apply skipn_get. }
        rewrite EG. pose proof (C4 a (S a + b) ltac:(lia) ltac:(lia)) as LE.
        destruct LE as [LE|LE]; auto. exfalso.
        assert (In (get 0 used a) used) by (apply get_In; lia). assert (In (get 0 used (S a + b)) used) by (apply get_In; lia).
        pose proof (HI _ _ (proj1 (C3 _ H)) (proj1 (C3 _ H0)) LE) as EI. unfold get in EI.
        pose proof (proj1 (NoDup_nth used 0) C2 a (S a + b) ltac:(lia) ltac:(lia) EI). lia. }
    exact (G 0).
  - intros e He. apply in_map_iff in He. destruct He as (i & <- & Hi). destruct (C3 i Hi). exists i. auto.
  - rewrite map_length. auto.
  - intros e (i & Hi & HR & ->) NI. destruct (in_dec Nat.eq_dec i used) as [Hu|Hu].
    + exfalso. apply NI. apply in_map_iff. exists i. auto.
    + destruct (C5 i Hi Hu HR) as [L G]. rewrite map_length. split; auto. intros f Hf. apply in_map_iff in Hf. destruct Hf as (j & <- & Hj). cbn [fst]. auto.
Qed.

(** [is_idw] in terms of the list of pairs *)
Lemma is_idw_pairs d z p used v : is_idw d z p used v <->
  match map (fun i => (d i, rget z i)) used with
  | [] => v = n_nan
  | ((d0, z0) :: _) as l => if Rlt_dec d0 (1 / 10000000000) then v = (XFin z0 : XR)
      else exists r, v = (XFin r : XR) /\ (r * rsum (map (fun e => / Rpower (fst e) p) l) = rsum (map (fun e => snd e * / Rpower (fst e) p) l))%R
  end.
Proof.
  destruct used as [|i0 u]; [reflexivity|]. unfold is_idw. cbn [map]. destruct (Rlt_dec (d i0) (1 / 10000000000)); [reflexivity|].
  cbn [map fst snd]. rewrite !map_map. reflexivity.
Qed.
Lemma idw_determined d z p used v d' z' used' v' :
  map (fun i => (d i, rget z i)) used = map (fun i => (d' i, rget z' i)) used' ->
  is_idw d z p used v -> is_idw d' z' p used' v' -> v = v'.
Proof.
  intros E I I'. apply is_idw_pairs in I. apply is_idw_pairs in I'. rewrite <- E in I'.
  destruct (map (fun i => (d i, rget z i)) used) as [|[d0 z0] l]; [congruence|].
  destruct (Rlt_dec d0 (1 / 10000000000)); [congruence|]. destruct I as (r & -> & A), I' as (r' & -> & B). refine (f_equal (XFin : R -> XR) _).
  assert (W : (0 < rsum (map (fun e : R * R => / Rpower (fst e) p) ((d0, z0) :: l)))%R).
  { apply rsum_pos; [discriminate|]. intros. apply Rinv_0_lt_compat; unfold Rpower; apply exp_pos. }
  apply Rmult_eq_reg_r with (1 := eq_trans A (eq_sym B)). lra.
Qed.

Lemma pairs_perm d z n d' z' n' ub :
  Permutation (map (fun i => (d i, rget z i)) (seq 0 n)) (map (fun i => (d' i, rget z' i)) (seq 0 n')) ->
  forall e, pairs d z n ub e <-> pairs d' z' n' ub e.
Proof.
  intros P e. assert (G : forall d z n, pairs d z n ub e <-> In e (map (fun i => (d i, rget z i)) (seq 0 n)) /\ match ub with None => True | Some u => (fst e < u)%R end).
  { clear. intros d z n. unfold pairs, in_range. split.
    - intros (i & Hi & HR & ->). split; [apply in_map_iff; exists i; split; auto; apply in_seq; lia|destruct ub; auto].
    - intros [H HR]. apply in_map_iff in H. destruct H as (i & <- & Hi). apply in_seq in Hi. exists i. split; [lia|]. split; auto. }
  rewrite !G. split; intros [A B]; split; auto; [apply Permutation_in with (1 := P)|apply Permutation_in with (1 := Permutation_sym P)]; auto.
Qed.
Lemma injective_perm (d d' : nat -> R) n n' : injective d n -> Permutation (map d (seq 0 n)) (map d' (seq 0 n')) -> injective d' n'.
Proof.
  intros H P. assert (N : NoDup (map d (seq 0 n))).
  { clear P. assert (G : forall m a, a + m <= n -> NoDup (map d (seq a m))).
    { induction m as [|m IH]; intros a L; cbn [seq map]; constructor; [|apply IH; lia].
      intros I. apply in_map_iff in I. destruct I as (i & E & Hi). apply in_seq in Hi. apply H in E; lia. }
    apply G. lia. }
  apply (Permutation_NoDup P) in N. intros i j Hi Hj E.
  pose proof (proj1 (NoDup_nth (map d' (seq 0 n')) (d' 0)) N i j) as U. rewrite !map_length, !seq_length in U.
  apply U; auto. rewrite !map_nth, !seq_nth by auto. exact E.
Qed.
Lemma combine_pairs (X : list rpt) (q : rpt) (z : list R) : length z = length X ->
  combine (map (rdist q) X) z = map (fun i => (dist_to X q i, rget z i)) (seq 0 (length X)).
Proof.
  unfold dist_to, rget. revert z. induction X as [|x X IH]; intros [|y z] H; try discriminate; auto.
  cbn [map combine length seq]. f_equal. rewrite IH by (cbn in H; lia). rewrite <- seq_shift, map_map. reflexivity.
Qed.
Lemma map_dist (X : list rpt) (q : rpt) : map (rdist q) X = map (dist_to X q) (seq 0 (length X)).
Proof. unfold dist_to. induction X as [|x X IH]; auto. cbn [map length seq]. f_equal. rewrite IH, <- seq_shift, map_map. reflexivity. Qed.

Theorem idw_only_distances query query' (X X' qs qs' : list rpt) (z z' : list R) k (p : R) ub t t' v v' :
  query_ok query -> query_ok query' -> new_tree (map ofP X) = Ok t -> new_tree (map ofP X') = Ok t' ->
  length z = length X -> length z' = length X' -> qs <> [] -> length qs = length qs' -> 2 <= k ->
  (forall j, j < length qs -> let q := get (0%R, 0%R) qs j in let q' := get (0%R, 0%R) qs' j in
     NoDup (map (rdist q) X) /\ Permutation (combine (map (rdist q) X) z) (combine (map (rdist q') X') z')) ->
  snd (tree_call XRm query t (map ofP qs) (ofR z) k zero (XFin p : XR) (ofU ub)) = Ok v ->
  snd (tree_call XRm query' t' (map ofP qs') (ofR z') k zero (XFin p : XR) (ofU ub)) = Ok v' -> v = v'.
Proof.
  intros Q Q' HT HT' HZ HZ' Hq Hl Hk H HV HV'.
  assert (Hq' : qs' <> []) by (intros ->; destruct qs; [congruence|discriminate]).
  assert (L0 : 0 < length qs) by (destruct qs; [congruence|cbn; lia]).
  destruct (tree_call_used query X qs k ub t Q HT Hq Hk 0 L0) as (u0 & _ & F0). destruct (F0 z p v HZ HV) as [LV _].
  destruct (tree_call_used query' X' qs' k ub t' Q' HT' Hq' Hk 0 ltac:(lia)) as (u0' & _ & F0'). destruct (F0' z' p v' HZ' HV') as [LV' _].
  apply (get_ext (n_nan : XR)); [congruence|]. intros j Hj. rewrite LV in Hj.
  destruct (tree_call_used query X qs k ub t Q HT Hq Hk j Hj) as (u & N & F). destruct (F z p v HZ HV) as [_ I].
  destruct (tree_call_used query' X' qs' k ub t' Q' HT' Hq' Hk j ltac:(lia)) as (u' & N' & F'). destruct (F' z' p v' HZ' HV') as [_ I'].
  destruct (H j Hj) as [ND P].
  assert (P1 : Permutation (map (rdist (get (0%R, 0%R) qs j)) X) (map (rdist (get (0%R, 0%R) qs' j)) X')).
  { assert (CF : forall (A B : Type) (a : list A) (b : list B), length a = length b -> map fst (combine a b) = a).
    { clear. intros A B. induction a as [|x a IH]; intros [|y b] E; try discriminate; auto. cbn. f_equal. apply IH. cbn in E. lia. }
    pose proof (Permutation_map fst P) as PM. rewrite !CF in PM by (rewrite map_length; auto). exact PM. }
  rewrite !combine_pairs in P by auto. rewrite !map_dist in P1. rewrite map_dist in ND.
  set (d := dist_to X (get (0%R, 0%R) qs j)) in *. set (d' := dist_to X' (get (0%R, 0%R) qs' j)) in *.
  assert (J : injective d (length X)).
  { intros a b Ha Hb E. pose proof (proj1 (NoDup_nth (map d (seq 0 (length X))) (d 0)) ND a b) as U. rewrite !map_length, !seq_length in U.
    apply U; auto. rewrite !map_nth, !seq_nth by auto. exact E. }
  pose proof (injective_perm d d' _ _ J P1) as J'.
  refine (idw_determined d z p u _ d' z' u' _ _ I I').
  pose proof (nearest_selection d z _ k ub u J N) as S1. pose proof (nearest_selection d' z' _ k ub u' J' N') as S2.
  pose proof (pairs_perm d z (length X) d' z' (length X') ub P) as PP.
  apply (selection_unique (pairs d z (length X) ub) k).
  - intros e f (a & Ha & _ & ->) (b & Hb & _ & ->) E. cbn in E. rewrite (J a b Ha Hb E). reflexivity.
  - exact S1.
  - destruct S2 as [T1 T2 T3 T4]. constructor; auto; intros e He; [apply PP; auto|apply T4, PP; auto].
Qed.

(** ** moving everything, listing the stations in another order *)
Theorem idw_moved query query' (X qs : list rpt) (f : rpt -> rpt) (z : list R) k (p : R) ub t t' v v' :
  query_ok query -> query_ok query' -> new_tree (map ofP X) = Ok t -> new_tree (map ofP (map f X)) = Ok t' ->
  (forall a b, rdist (f a) (f b) = rdist a b) ->
  length z = length X -> qs <> [] -> 2 <= k -> (forall q, In q qs -> NoDup (map (rdist q) X)) ->
  snd (tree_call XRm query t (map ofP qs) (ofR z) k zero (XFin p : XR) (ofU ub)) = Ok v ->
  snd (tree_call XRm query' t' (map ofP (map f qs)) (ofR z) k zero (XFin p : XR) (ofU ub)) = Ok v' -> v = v'.
Proof.
  intros Q Q' HT HT' HF HZ Hq Hk ND HV HV'.
  apply (idw_only_distances query query' X (map f X) qs (map f qs) z z k p ub t t'); auto; [rewrite map_length; auto|rewrite map_length; auto|].
  intros j Hj. cbv zeta. split; [apply ND, get_In; auto|]. rewrite get_map with (d := (0%R, 0%R)) by auto. rewrite map_map.
  rewrite (map_ext (fun x => rdist (f (get (0%R, 0%R) qs j)) (f x)) (rdist (get (0%R, 0%R) qs j))) by (intros; apply HF). apply Permutation_refl.
Qed.
Theorem idw_station_order query query' (X X' qs : list rpt) (z z' : list R) k (p : R) ub t t' v v' :
  query_ok query -> query_ok query' -> new_tree (map ofP X) = Ok t -> new_tree (map ofP X') = Ok t' ->
  Permutation (combine X z) (combine X' z') ->
  length z = length X -> length z' = length X' -> qs <> [] -> 2 <= k -> (forall q, In q qs -> NoDup (map (rdist q) X)) ->
  snd (tree_call XRm query t (map ofP qs) (ofR z) k zero (XFin p : XR) (ofU ub)) = Ok v ->
  snd (tree_call XRm query' t' (map ofP qs) (ofR z') k zero (XFin p : XR) (ofU ub)) = Ok v' -> v = v'.
Proof.
  intros Q Q' HT HT' HP HZ HZ' Hq Hk ND HV HV'.
  apply (idw_only_distances query query' X X' qs qs z z' k p ub t t'); auto.
  intros j Hj. cbv zeta. split; [apply ND, get_In; auto|].
  assert (G : forall (Y : list rpt) (w : list R) q, combine (map (rdist q) Y) w = map (fun e => (rdist q (fst e), snd e)) (combine Y w)).
  { clear. induction Y as [|y Y IH]; intros [|b w] q; auto. cbn. rewrite IH. reflexivity. }
  rewrite !G. apply Permutation_map, HP.
Qed.

(** ** unit of the coordinates *)
Definition scale_pt (c : R) (a : rpt) : rpt := (c * fst a, c * snd a)%R.
Lemma rdist_scale c a b : (0 < c)%R -> rdist (scale_pt c a) (scale_pt c b) = (c * rdist a b)%R.
Proof.
  intros Hc. unfold rdist, scale_pt. cbn [fst snd].
  set (x := (fst a - fst b)%R). set (y := (snd a - snd b)%R).
  replace ((c * fst a - c * fst b) * (c * fst a - c * fst b) + (c * snd a - c * snd b) * (c * snd a - c * snd b))%R
    with ((c * c) * (x * x + y * y))%R by (unfold x, y; ring).
  assert (0 <= x * x)%R by (apply Rle_0_sqr). assert (0 <= y * y)%R by (apply Rle_0_sqr).
  rewrite sqrt_mult, sqrt_square by nra. reflexivity.
Qed.
Lemma idw_scaled_pairs (l : list (R * R)) c p r r' d0 z0 : (0 < c)%R -> (forall e, In e ((d0, z0) :: l) -> (0 < fst e)%R) ->
  let L := (d0, z0) :: l in let L' := map (fun e => ((c * fst e)%R, snd e)) L in
  (r * rsum (map (fun e => / Rpower (fst e) p) L) = rsum (map (fun e => snd e * / Rpower (fst e) p) L))%R ->
  (r' * rsum (map (fun e => / Rpower (fst e) p) L') = rsum (map (fun e => snd e * / Rpower (fst e) p) L'))%R -> r = r'.
Proof.
  intros Hc Hp L L' A B. unfold L' in B. rewrite !map_map in B. cbn [fst snd] in B.
  assert (K : forall e, In e L -> (/ Rpower (c * fst e) p = / Rpower c p * / Rpower (fst e) p)%R).
  { intros e He. rewrite <- Rinv_mult. f_equal. unfold Rpower. rewrite ln_mult by (auto; apply Hp; auto). rewrite Rmult_plus_distr_l, exp_plus. reflexivity. }
  rewrite (rsum_map_ext _ (fun e => / Rpower c p * / Rpower (fst e) p)%R) in B by auto.
  rewrite (rsum_map_ext (fun e => snd e * / Rpower (c * fst e) p)%R (fun e => / Rpower c p * (snd e * / Rpower (fst e) p))%R) in B by (intros e He; rewrite K by auto; ring).
  assert (SC : forall f : R * R -> R, rsum (map (fun e => / Rpower c p * f e)%R L) = (/ Rpower c p * rsum (map f L))%R).
  { intros f. generalize L. induction L0 as [|e l0 IH]; cbn [map rsum fold_right]; [ring|]. fold (rsum (map (fun e => / Rpower c p * f e)%R l0)). fold (rsum (map f l0)). rewrite IH. ring. }
  rewrite (SC (fun e => / Rpower (fst e) p)%R), (SC (fun e => snd e * / Rpower (fst e) p)%R) in B.
  assert (W : (0 < rsum (map (fun e : R * R => / Rpower (fst e) p) L))%R).
  { apply rsum_pos; [discriminate|]. intros. apply Rinv_0_lt_compat; unfold Rpower; apply exp_pos. }
  assert (CP : (0 < / Rpower c p)%R) by (apply Rinv_0_lt_compat; unfold Rpower; apply exp_pos).
  apply Rmult_eq_reg_r with (rsum (map (fun e : R * R => / Rpower (fst e) p)%R L)); [|lra]. rewrite A.
  apply Rmult_eq_reg_l with (/ Rpower c p)%R; lra.
Qed.

Lemma dist_scale X q c i : (0 < c)%R -> i < length X -> dist_to (map (scale_pt c) X) (scale_pt c q) i = (c * dist_to X q i)%R.
Proof. intros Hc Hi. unfold dist_to. rewrite get_map with (d := (0%R, 0%R)) by auto. apply rdist_scale, Hc. Qed.
Lemma nearest_scale (d d' : nat -> R) c n k ub used : (0 < c)%R -> (forall i, i < n -> d' i = (c * d i)%R) ->
  is_nearest d' n k (option_map (Rmult c) ub) used -> is_nearest d n k ub used.
Proof.
  intros Hc H [C1 C2 C3 C4 C5].
  assert (R1 : forall i, i < n -> in_range d' (option_map (Rmult c) ub) i <-> in_range d ub i).
  { intros i Hi. destruct ub as [u|]; cbn; [|tauto]. rewrite H by auto. split; intros; nra. }
  assert (RU : forall a, a < length used -> get 0 used a < n) by (intros a Ha; apply C3, get_In; auto).
  constructor; auto.
  - intros i Hi. destruct (C3 i Hi) as [A B]. split; auto. apply R1; auto.
  - intros a b Hab Hb. pose proof (C4 a b Hab Hb) as K. rewrite !H in K by (apply RU; lia). nra.
  - intros i Hi Hu HR. destruct (C5 i Hi Hu (proj2 (R1 i Hi) HR)) as [A B]. split; auto. intros j Hj. pose proof (B j Hj) as K.
    rewrite !H in K by (auto; apply C3; auto). nra.
Qed.
Theorem idw_coordinate_unit query query' (X qs : list rpt) (z : list R) c k (p : R) ub t t' v v' :
  query_ok query -> query_ok query' -> (0 < c)%R ->
  new_tree (map ofP X) = Ok t -> new_tree (map ofP (map (scale_pt c) X)) = Ok t' ->
  length z = length X -> qs <> [] -> 2 <= k ->
  (forall q, In q qs -> NoDup (map (rdist q) X) /\ forall x, In x X -> 1 / 10000000000 <= rdist q x /\ 1 / 10000000000 <= c * rdist q x)%R ->
  snd (tree_call XRm query t (map ofP qs) (ofR z) k zero (XFin p : XR) (ofU ub)) = Ok v ->
  snd (tree_call XRm query' t' (map ofP (map (scale_pt c) qs)) (ofR z) k zero (XFin p : XR) (ofU (option_map (Rmult c) ub))) = Ok v' -> v = v'.
Proof.
  intros Q Q' Hc HT HT' HZ Hq Hk H HV HV'.
  assert (Hq' : map (scale_pt c) qs <> []) by (destruct qs; [congruence|discriminate]).
  assert (HZ' : length z = length (map (scale_pt c) X)) by (rewrite map_length; auto).
  assert (L0 : 0 < length qs) by (destruct qs; [congruence|cbn; lia]).
  destruct (tree_call_used query X qs k ub t Q HT Hq Hk 0 L0) as (u0 & _ & F0). destruct (F0 z p v HZ HV) as [LV _].
  destruct (tree_call_used query' _ _ k (option_map (Rmult c) ub) t' Q' HT' Hq' Hk 0 ltac:(rewrite map_length; lia)) as (u0' & _ & F0'). destruct (F0' z p v' HZ' HV') as [LV' _].
  rewrite map_length in LV'. apply (get_ext (n_nan : XR)); [congruence|]. intros j Hj. rewrite LV in Hj.
  destruct (tree_call_used query X qs k ub t Q HT Hq Hk j Hj) as (u & N & F). destruct (F z p v HZ HV) as [_ I].
  destruct (tree_call_used query' _ _ k (option_map (Rmult c) ub) t' Q' HT' Hq' Hk j ltac:(rewrite map_length; lia)) as (u' & N' & F'). destruct (F' z p v' HZ' HV') as [_ I'].
  rewrite map_length in N'. rewrite get_map with (d := (0%R, 0%R)) in N', I' by auto. set (q := get (0%R, 0%R) qs j) in *.
  destruct (H q (get_In _ _ _ Hj)) as [ND HD]. rewrite map_dist in ND.
  set (d := dist_to X q) in *. set (d' := dist_to (map (scale_pt c) X) (scale_pt c q)) in *.
  assert (E : forall i, i < length X -> d' i = (c * d i)%R) by (intros i Hi; apply dist_scale; auto).
  pose proof (nearest_scale d d' c _ k ub u' Hc E N') as N2.
  assert (J : injective d (length X)).
  { intros a b Ha Hb EE. pose proof (proj1 (NoDup_nth (map d (seq 0 (length X))) (d 0)) ND a b) as U. rewrite !map_length, !seq_length in U.
    apply U; auto. rewrite !map_nth, !seq_nth by auto. exact EE. }
  assert (EU : map (fun i => (d i, rget z i)) u = map (fun i => (d i, rget z i)) u').
  { apply (selection_unique (pairs d z (length X) ub) k); [|apply nearest_selection; auto|apply nearest_selection; auto].
    intros e f (a & Ha & _ & ->) (b & Hb & _ & ->) EE. cbn in EE. rewrite (J a b Ha Hb EE). reflexivity. }
  assert (FAR : forall i, i < length X -> (1 / 10000000000 <= d i /\ 1 / 10000000000 <= c * d i)%R).
  { intros i Hi. apply HD, get_In; auto. }
  assert (EL : map (fun i => (d' i, rget z i)) u' = map (fun e => ((c * fst e)%R, snd e)) (map (fun i => (d i, rget z i)) u')).
  { rewrite map_map. apply map_ext_in. intros i Hi. cbn [fst snd]. rewrite E by (apply (nn_range _ _ _ _ _ N' i Hi)). reflexivity. }
  apply is_idw_pairs in I. apply is_idw_pairs in I'. rewrite EL in I'. rewrite EU in I. clear EL EU N u F F0 F0' F'.
  assert (HL : forall e, In e (map (fun i => (d i, rget z i)) u') -> (1 / 10000000000 <= fst e /\ 1 / 10000000000 <= c * fst e)%R).
  { intros e He. apply in_map_iff in He. destruct He as (i & <- & Hi). apply FAR. apply (nn_range _ _ _ _ _ N' i Hi). }
  destruct (map (fun i => (d i, rget z i)) u') as [|[d0 z0] l]; [congruence|]. cbn [map fst snd] in I'.
  destruct (HL (d0, z0) (or_introl eq_refl)) as [A B]. cbn [fst] in A, B.
  destruct (Rlt_dec d0 (1 / 10000000000)); [lra|]. destruct (Rlt_dec (c * d0) (1 / 10000000000)); [lra|].
  destruct I as (r & -> & A1), I' as (r' & -> & B1). refine (f_equal (XFin : R -> XR) _).
  refine (idw_scaled_pairs l c p r r' d0 z0 Hc _ A1 B1). intros e He. destruct (HL e He). lra.
Qed.

(** ** changes of the values *)
Theorem idw_values query (X qs : list rpt) k (p : R) ub t :
  query_ok query -> new_tree (map ofP X) = Ok t -> qs <> [] -> 2 <= k ->
  (forall (a b : R) z1 z2 v1 v2, length z1 = length X -> length z2 = length X ->
   snd (tree_call XRm query t (map ofP qs) (ofR z1) k zero (XFin p : XR) (ofU ub)) = Ok v1 ->
   snd (tree_call XRm query t (map ofP qs) (ofR z2) k zero (XFin p : XR) (ofU ub)) = Ok v2 ->
   snd (tree_call XRm query t (map ofP qs) (ofR (map2 (fun x y => a * x + b * y)%R z1 z2)) k zero (XFin p : XR) (ofU ub)) =
   Ok (map2 (fun x y : XR => n_add (n_mul (XFin a : XR) x) (n_mul (XFin b : XR) y)) v1 v2)) /\
  (forall (a b : R) z v, length z = length X ->
   snd (tree_call XRm query t (map ofP qs) (ofR z) k zero (XFin p : XR) (ofU ub)) = Ok v ->
   snd (tree_call XRm query t (map ofP qs) (ofR (map (fun x => a * x + b)%R z)) k zero (XFin p : XR) (ofU ub)) =
   Ok (map (fun x : XR => n_add (n_mul (XFin a : XR) x) (XFin b : XR)) v)) /\
  (forall z z' v v', length z = length X -> length z' = length X -> (forall i, i < length X -> (rget z i <= rget z' i)%R) ->
   snd (tree_call XRm query t (map ofP qs) (ofR z) k zero (XFin p : XR) (ofU ub)) = Ok v ->
   snd (tree_call XRm query t (map ofP qs) (ofR z') k zero (XFin p : XR) (ofU ub)) = Ok v' ->
   forall j, j < length qs -> let x := get (n_nan : XR) v j in let x' := get (n_nan : XR) v' j in
   (x = n_nan /\ x' = n_nan) \/ n_leb x x' = true).
Proof.
  intros Q HT Hq Hk. pose proof (tree_call_used query X qs k ub t Q HT Hq Hk) as U.
  assert (EX : forall z, length z = length X -> exists v, snd (tree_call XRm query t (map ofP qs) (ofR z) k zero (XFin p : XR) (ofU ub)) = Ok v /\ length v = length qs).
  { intros z HZ. destruct (tree_call_exact query X qs z k p ub t Q HT HZ Hq Hk) as (v & E & L & _). eauto. }
  split; [|split].
  - intros a b z1 z2 v1 v2 H1 H2 E1 E2.
    assert (HZ : length (map2 (fun x y => a * x + b * y)%R z1 z2) = length X) by (unfold map2; rewrite map_length, combine_length; lia).
    destruct (EX _ HZ) as (v3 & E3 & L3). rewrite E3. f_equal.
    destruct (EX _ H1) as (v1' & E1' & L1). rewrite E1 in E1'. injection E1' as <-.
    destruct (EX _ H2) as (v2' & E2' & L2). rewrite E2 in E2'. injection E2' as <-.
    apply (get_ext (n_nan : XR)); [unfold map2; rewrite map_length, combine_length; lia|]. intros j Hj. rewrite L3 in Hj.
    rewrite (get_map2 _ (n_nan : XR) (n_nan : XR)) by lia. destruct (U j Hj) as (u & N & F).
    destruct (F _ p _ H1 E1) as [_ I1]. destruct (F _ p _ H2 E2) as [_ I2]. destruct (F _ p _ HZ E3) as [_ I3].
    refine (idw_superposition _ z1 z2 _ p u _ _ _ a b _ I1 I2 I3). intros i Hi. apply (nn_range _ _ _ _ _ N) in Hi.
    unfold rget. rewrite (get_map2 _ 0%R 0%R) by lia. reflexivity.
  - intros a b z v HZ E. assert (HZ' : length (map (fun x => a * x + b)%R z) = length X) by (rewrite map_length; auto).
    destruct (EX _ HZ') as (v3 & E3 & L3). rewrite E3. f_equal.
    destruct (EX _ HZ) as (v' & E' & L). rewrite E in E'. injection E' as <-.
    assert (HC : length (repeat 1%R (length X)) = length X) by apply repeat_length.
    destruct (EX _ HC) as (vc & EC & LC).
    apply (get_ext (n_nan : XR)); [rewrite map_length; lia|]. intros j Hj. rewrite L3 in Hj.
    rewrite (get_map _ (n_nan : XR)) by lia. destruct (U j Hj) as (u & N & F).
    destruct (F _ p _ HZ E) as [_ I1]. destruct (F _ p _ HC EC) as [_ I2]. destruct (F _ p _ HZ' E3) as [_ I3].
    assert (HS : forall i, In i u -> rget (map (fun x => a * x + b)%R z) i = (a * rget z i + b * rget (repeat 1%R (length X)) i)%R).
    { intros i Hi. apply (nn_range _ _ _ _ _ N) in Hi. unfold rget. rewrite get_map with (d := 0%R) by lia. rewrite get_repeat by lia. ring. }
    pose proof (idw_superposition _ z (repeat 1%R (length X)) _ p u _ _ _ a b HS I1 I2 I3) as K.
    destruct u as [|i0 u].
    + cbn [is_idw] in I1, I2, I3. rewrite I3, I1. reflexivity.
    + assert (CV : get (n_nan : XR) vc j = (XFin 1 : XR)).
      { refine (idw_const _ _ _ _ _ 1%R _ _ I2); [|discriminate]. intros i Hi. apply (nn_range _ _ _ _ _ N) in Hi. unfold rget. apply get_repeat. lia. }
      rewrite K, CV. f_equal. change (n_mul (XFin b : XR) (XFin 1 : XR)) with (XFin (b * 1) : XR). rewrite Rmult_1_r. reflexivity.
  - intros z z' v v' HZ HZ' H E E' j Hj. cbv zeta. destruct (U j Hj) as (u & N & F).
    destruct (F _ p _ HZ E) as [_ I1]. destruct (F _ p _ HZ' E') as [_ I2].
    destruct u as [|i0 u]; [left; split; assumption|right].
    refine (idw_mono _ z z' p _ _ _ _ _ I1 I2); [|discriminate]. intros i Hi. apply H. apply (nn_range _ _ _ _ _ N i Hi).
Qed.
