(** * Proofs about IDW *)
From Coq Require Import List ZArith Bool Reals Lra Lia Arith Permutation Sorted.
From Flocq Require Import Core.Raux.
From Verif Require Import Base Num NumF64 NumList NpOps Libm RealSpec RealStat KR_proofs Idw_model Idw_spec.
Import ListNotations.
Local Open Scope nat_scope.

(** ** One query point, exact arithmetic *)
Lemma filter_rows {A} (used : list nat) (f : nat -> A) pad n m : (forall i, In i used -> i < n) ->
  filter (fun e : A * nat => Nat.ltb (snd e) n) (map (fun i => (f i, i)) used ++ repeat (pad, n) m) = map (fun i => (f i, i)) used.
Proof.
  intros H. rewrite filter_app.
  assert (E : filter (fun e : A * nat => Nat.ltb (snd e) n) (repeat (pad, n) m) = []).
  { induction m; simpl; auto. rewrite Nat.ltb_irrefl. auto. }
  rewrite E, app_nil_r. induction used as [|i u IH]; simpl; auto.
  assert (i < n) by (apply H; left; auto). apply Nat.ltb_lt in H0. rewrite H0. f_equal. apply IH. intros; apply H; right; auto.
Qed.

Lemma rsum_div l s : rsum (map (fun x => x / s)%R l) = (rsum l / s)%R.
Proof. induction l; simpl; [unfold Rdiv; ring|]. rewrite IHl. unfold Rdiv. ring. Qed.

Lemma rsum_map_ext {A} (f g : A -> R) l : (forall x, In x l -> f x = g x) -> rsum (map f l) = rsum (map g l).
Proof. intros H. f_equal. apply map_ext_in. auto. Qed.

Lemma rsum_pos {A} (f : A -> R) l : l <> [] -> (forall x, In x l -> (0 < f x)%R) -> (0 < rsum (map f l))%R.
Proof.
  induction l as [|x l IH]; intros Hn H; [congruence|]. simpl. assert (0 < f x)%R by (apply H; left; auto).
  destruct l as [|y l]; [simpl; lra|]. assert (0 < rsum (map f (y :: l)))%R by (apply IH; [discriminate|intros; apply H; right; auto]). lra.
Qed.

Lemma lit_hit : n_lit 1 10 = (XFin (1 / 10000000000) : XR).
Proof.
  unfold n_lit. change (n_div (n_ofZ 1 : XR) (n_ofZ (10 ^ Z.of_nat 10))) with (xdiv (XFin 1) (XFin 10000000000) : XR).
  rewrite xdiv_fin by lra. reflexivity.
Qed.

Lemma idw_exact (d : nat -> R) (z : list R) (p : R) used (pad : XR) m :
  (forall i, In i used -> i < length z) ->
  (forall i, In i used -> (d (get 0%nat used 0) <= d i)%R) ->
  is_idw d z p used (idw_one XRm (ofR z) (XFin p : XR) (map (fun i => (XFin (d i) : XR, i)) used ++ repeat (pad, length z) m)).
Proof.
  intros Hr Hs. unfold idw_one. rewrite ofR_length, filter_rows by auto.
  destruct used as [|i0 u]; [reflexivity|].
  set (row := map (fun i => (XFin (d i) : XR, i)) (i0 :: u)).
  set (w0 := map (fun e : XR * nat => n_div one (m_pow XRm (fst e) (XFin p : XR))) row).
  change (is_idw d z p (i0 :: u) (if n_ltb (XFin (d i0) : XR) (n_lit 1 10) then nget (ofR z) i0
    else n_sum (map2 n_mul (map (fun x : XR => n_div x (n_sum w0)) w0) (map (fun e : XR * nat => nget (ofR z) (snd e)) row)))).
  unfold is_idw.
  assert (LT : n_ltb (XFin (d i0) : XR) (n_lit 1 10) = true <-> (d i0 < 1 / 10000000000)%R).
  { rewrite lit_hit. change (xltb (XFin (d i0)) (XFin (1 / 10000000000)) = true <-> (d i0 < 1 / 10000000000)%R).
    unfold xltb. split; intros H. - destruct (Rlt_bool_spec (d i0) (1 / 10000000000)); [auto|discriminate]. - apply Rlt_bool_true. auto. }
  destruct (Rlt_dec (d i0) (1 / 10000000000)) as [Hlt|Hge].
  - rewrite (proj2 LT Hlt). unfold nget. rewrite ofR_get by (apply Hr; left; auto). reflexivity.
  - assert (E : n_ltb (XFin (d i0) : XR) (n_lit 1 10) = false) by (apply not_true_is_false; intros H; apply LT in H; auto).
    rewrite E. clear E.
    set (us := i0 :: u) in *.
    assert (Hp : forall i, In i us -> (0 < d i)%R).
    { intros i Hi. specialize (Hs i Hi). change (get 0 us 0) with i0 in Hs. lra. }
    set (W := fun i => (/ Rpower (d i) p)%R).
    assert (HW : forall i, In i us -> (0 < W i)%R) by (intros; unfold W; apply Rinv_0_lt_compat; unfold Rpower; apply exp_pos).
    assert (HS : (0 < rsum (map W us))%R) by (apply rsum_pos; auto; discriminate).
    assert (E1 : w0 = ofR (map W us)).
    { unfold w0, row, ofR. rewrite !map_map. apply map_ext_in. intros i Hi. cbn [fst].
      change (m_pow XRm (XFin (d i) : XR) (XFin p : XR)) with (xpow (XFin (d i)) (XFin p) : XR).
      rewrite xpow_pos by auto. change (n_div one (XFin (Rpower (d i) p) : XR)) with (xdiv (XFin 1) (XFin (Rpower (d i) p)) : XR).
      rewrite xdiv_fin. 2:{ unfold Rpower. pose proof (exp_pos (p * ln (d i))). lra. }
      unfold W. apply f_equal. unfold Rdiv. ring. }
    rewrite E1, n_sum_ofR.
    set (s := rsum (map W us)) in *.
    assert (E2 : map (fun y : XR => n_div y (XFin s : XR)) (ofR (map W us)) = ofR (map (fun i => (W i / s)%R) us)).
    { unfold ofR. rewrite !map_map. apply map_ext. intros i.
      change (n_div (XFin (W i) : XR) (XFin s : XR)) with (xdiv (XFin (W i)) (XFin s) : XR). rewrite xdiv_fin by lra. reflexivity. }
    rewrite E2.
    assert (E3 : map2 n_mul (ofR (map (fun i => (W i / s)%R) us)) (map (fun e : XR * nat => nget (ofR z) (snd e)) row)
                 = ofR (map (fun i => (W i / s * rget z i)%R) us)).
    { unfold row. fold us. unfold ofR, map2. rewrite !map_map. clearbody s. clear - Hr. clearbody us. induction us as [|i l IH]; auto. cbn [map combine].
      rewrite IH by (intros; apply Hr; right; auto). f_equal. cbn [fst snd]. unfold nget.
      change (map (fun r => XFin r : XR) z) with (ofR z). rewrite ofR_get by (apply Hr; left; auto). reflexivity. }
    rewrite E3, n_sum_ofR. eexists. split; [reflexivity|].
    change (map (fun i => / Rpower (d i) p)%R us) with (map W us). fold s.
    rewrite (rsum_map_ext _ (fun i => (rget z i * W i) / s)%R) by (intros; unfold Rdiv; ring).
    rewrite <- (map_map (fun i => (rget z i * W i)%R) (fun x => (x / s)%R)), rsum_div.
    unfold Rdiv. rewrite Rmult_assoc, Rinv_l by lra. rewrite Rmult_1_r. apply rsum_map_ext. intros; unfold W; auto.
Qed.

(** an inverse distance weighted mean lies between the smallest and largest value used *)
Lemma is_idw_bounds d z p used v lo hi : used <> [] -> is_idw d z p used v ->
  (forall i, In i used -> (lo <= rget z i <= hi)%R) -> exists r, v = (XFin r : XR) /\ (lo <= r <= hi)%R.
Proof.
  intros Hn H B. destruct used as [|i0 u]; [congruence|]. unfold is_idw in H.
  destruct (Rlt_dec (d i0) (1 / 10000000000)).
  - eexists. split; [exact H|]. apply B. left; auto.
  - destruct H as (r & -> & E). exists r. split; auto. set (us := i0 :: u) in *.
    set (W := fun i => (/ Rpower (d i) p)%R) in *.
    assert (HW : forall i, (0 < W i)%R) by (intros; unfold W; apply Rinv_0_lt_compat; unfold Rpower; apply exp_pos).
    assert (HS : (0 < rsum (map W us))%R) by (apply rsum_pos; auto).
    change (map (fun i => rget z i * / Rpower (d i) p)%R us) with (map (fun i => rget z i * W i)%R us) in E.
    assert (LB : forall l, (forall i, In i l -> (lo <= rget z i <= hi)%R) ->
       (lo * rsum (map W l) <= rsum (map (fun i => rget z i * W i)%R l) <= hi * rsum (map W l))%R).
    { induction l as [|i l IH]; intros Bl; simpl; [lra|].
      destruct IH as [I1 I2]; [intros; apply Bl; right; auto|]. destruct (Bl i (or_introl eq_refl)). specialize (HW i).
      assert (lo * W i <= rget z i * W i)%R by (apply Rmult_le_compat_r; lra).
      assert (rget z i * W i <= hi * W i)%R by (apply Rmult_le_compat_r; lra). lra. }
    specialize (LB us B). rewrite <- E in LB. destruct LB. split; apply Rmult_le_reg_r with (rsum (map W us)); auto.
Qed.

(** ** the brute force search meets the contract *)
Section Sort.
Variable d : nat -> R.
Let D := fun i => (XFin (d i) : XR).
Lemma D_leb i j : n_leb (D i) (D j) = true <-> (d i <= d j)%R.
Proof.
  change (xleb (XFin (d i)) (XFin (d j)) = true <-> (d i <= d j)%R). unfold xleb.
  split; intros H. - destruct (Rle_bool_spec (d i) (d j)); [auto|discriminate]. - apply Rle_bool_true. auto.
Qed.
Lemma insert_by_perm i l : Permutation (insert_by D i l) (i :: l).
Proof. induction l as [|j l IH]; cbn [insert_by]; auto. destruct (n_leb (D i) (D j)); auto. eapply perm_trans; [apply perm_skip, IH|apply perm_swap]. Qed.
Lemma sort_by_perm l : Permutation (sort_by D l) l.
Proof. induction l; simpl; auto. eapply perm_trans; [apply insert_by_perm|]. auto. Qed.
Lemma insert_by_sorted i l : StronglySorted (fun a b => (d a <= d b)%R) l -> StronglySorted (fun a b => (d a <= d b)%R) (insert_by D i l).
Proof.
  induction 1 as [|j l H IH F]; cbn [insert_by]; [repeat constructor|].
  destruct (n_leb (D i) (D j)) eqn:E.
  - apply D_leb in E. constructor; [constructor; auto|]. constructor; auto. rewrite Forall_forall in *. intros x Hx. specialize (F x Hx). lra.
  - constructor; auto. rewrite Forall_forall in *. intros x Hx. apply (Permutation_in _ (insert_by_perm i l)) in Hx.
    destruct Hx as [<-|Hx]; auto. assert (~ (d i <= d j)%R) by (rewrite <- D_leb, E; discriminate). lra.
Qed.
Lemma sort_by_sorted l : StronglySorted (fun a b => (d a <= d b)%R) (sort_by D l).
Proof. induction l; simpl; [constructor|]. apply insert_by_sorted; auto. Qed.
End Sort.

Lemma sorted_get (d : nat -> R) l : StronglySorted (fun a b => (d a <= d b)%R) l ->
  forall a b, a <= b -> b < length l -> (d (get 0%nat l a) <= d (get 0%nat l b))%R.
Proof.
  induction 1 as [|x l H IH F]; intros a b Hab Hb; [simpl in Hb; lia|].
  destruct a, b; simpl in *; try lia; unfold get; simpl; try lra.
  - rewrite Forall_forall in F. apply F. apply nth_In. lia.
  - apply (IH a b); lia.
Qed.

Lemma NoDup_app_l {A} (a b : list A) : NoDup (a ++ b) -> NoDup a.
Proof.
  induction a as [|x a IH]; intros H; [constructor|]. inversion H; subst. constructor; auto.
  intros I. apply H2. apply in_or_app; auto.
Qed.

Lemma nearest_of_sorted (d : nat -> R) n k ub l :
  StronglySorted (fun a b => (d a <= d b)%R) l -> NoDup l ->
  (forall i, In i l <-> i < n /\ in_range d ub i) -> is_nearest d n k ub (firstn k l).
Proof.
  intros HS ND HI. pose proof (firstn_skipn k l) as FS.
  constructor.
  - apply firstn_le_length.
  - rewrite <- FS in ND. apply NoDup_app_l in ND. auto.
  - intros i Hi. apply HI. rewrite <- FS. apply in_or_app; auto.
  - intros a b Hab Hb. rewrite firstn_length in Hb. unfold get. rewrite !nth_firstn_lt by lia. apply (sorted_get d l HS); lia.
  - intros i Hi Hn Hr. assert (Il : In i l) by (apply HI; auto).
    assert (Is : In i (skipn k l)) by (rewrite <- FS in Il; apply in_app_or in Il; tauto).
    apply In_get with (d := 0) in Is. destruct Is as (a & Ha & <-). rewrite skipn_length in Ha. split.
    + rewrite firstn_length. lia.
    + intros j Hj. apply In_get with (d := 0) in Hj. destruct Hj as (b & Hb & <-). rewrite firstn_length in Hb.
      unfold get. rewrite nth_firstn_lt, nth_skipn_plus by lia. apply (sorted_get d l HS b (k + a)); lia.
Qed.

Lemma pdist_exact a b : pdist (ofP a) (ofP b) = (XFin (rdist a b) : XR).
Proof.
  unfold pdist, ofP, rdist. cbn [fst snd].
  change (xsqrt (XFin ((fst a - fst b) * (fst a - fst b) + (snd a - snd b) * (snd a - snd b))) = XFin (sqrt ((fst a - fst b) * (fst a - fst b) + (snd a - snd b) * (snd a - snd b)))).
  unfold xsqrt. rewrite Rlt_bool_false; auto. apply Rplus_le_le_0_compat; apply Rle_0_sqr.
Qed.

Lemma sort_by_ext {O : numops} (d d' : nat -> O) l : (forall i, In i l -> d i = d' i) -> sort_by d l = sort_by d' l.
Proof.
  induction l as [|i l IH]; intros H; simpl; auto. rewrite <- IH by (intros; apply H; right; auto).
  assert (G : forall m, (forall j, In j m -> d j = d' j) -> insert_by d i m = insert_by d' i m).
  { induction m as [|j m IHm]; intros Hm; simpl; auto. rewrite (H i) by (left; auto). rewrite (Hm j) by (left; auto).
    destruct (n_leb _ _); auto. f_equal. apply IHm. intros; apply Hm; right; auto. }
  apply G. intros j Hj. apply H. right.
  assert (P : forall m x, In x (sort_by d m) -> In x m).
  { assert (P1 : forall m y x, In x (insert_by d y m) -> x = y \/ In x m).
    { induction m as [|w m IHm]; cbn [insert_by]; intros y x Hx.
      - destruct Hx as [<-|[]]; auto.
      - destruct (n_leb (d y) (d w)); destruct Hx as [<-|Hx]; auto; [right; left; auto|].
        apply IHm in Hx. destruct Hx; [auto|right; right; auto]. }
    induction m; simpl; auto. intros x Hx. apply P1 in Hx. destruct Hx; auto. }
  apply P; auto.
Qed.

Lemma brute_query_ok : query_ok brute_query.
Proof.
  intros X q k ub. unfold brute_query. rewrite map_length.
  set (d := dist_to X q).
  assert (E : forall i, i < length X -> pdist (ofP q) (get (n_nan, n_nan) (map ofP X) i) = (XFin (d i) : XR)).
  { intros i Hi. rewrite get_map with (d := (0%R, 0%R)) by auto. apply pdist_exact. }
  set (D := fun i => pdist (ofP q) (get (n_nan, n_nan) (map ofP X) i)) in *.
  set (used := firstn k (sort_by D (filter (fun i => below (ofU ub) (D i)) (seq 0 (length X))))).
  change (exists u pad, is_nearest d (length X) k ub u /\
    map (fun i => (D i, i)) used ++ repeat (n_div one zero, length X) (k - length used) =
    map (fun i => (XFin (d i) : XR, i)) u ++ repeat (pad, length X) (k - length u)).
  set (D' := fun i => (XFin (d i) : XR)).
  assert (EF : filter (fun i => below (ofU ub) (D i)) (seq 0 (length X)) = filter (fun i => below (ofU ub) (D' i)) (seq 0 (length X))).
  { apply filter_ext_in. intros i Hi. apply in_seq in Hi. unfold D. rewrite E by lia. reflexivity. }
  assert (IF : forall i, In i (filter (fun i => below (ofU ub) (D i)) (seq 0 (length X))) <-> i < length X /\ in_range d ub i).
  { intros i. rewrite EF, filter_In, in_seq. unfold in_range, below, ofU. destruct ub as [u|]; cbn [option_map]; [|intuition lia].
    change (n_ltb (D' i) (XFin u : XR)) with (xltb (XFin (d i)) (XFin u)). unfold xltb.
    destruct (Rlt_bool_spec (d i) u); intuition; try lia; try discriminate; lra. }
  set (fl := filter (fun i => below (ofU ub) (D i)) (seq 0 (length X))) in *.
  assert (ES : sort_by D fl = sort_by D' fl).
  { apply sort_by_ext. intros i Hi. apply IF in Hi. apply E. tauto. }
  unfold used. rewrite ES. exists (firstn k (sort_by D' fl)), (n_div one zero). split.
  - apply nearest_of_sorted.
    + apply sort_by_sorted.
    + eapply Permutation_NoDup; [apply Permutation_sym, (sort_by_perm d)|]. apply NoDup_filter, seq_NoDup.
    + intros i. rewrite <- IF. split; apply Permutation_in; [|apply Permutation_sym]; apply (sort_by_perm d).
  - f_equal. apply map_ext_in. intros i Hi. f_equal. apply E.
    assert (In i fl). { eapply Permutation_in; [apply (sort_by_perm d)|]. rewrite <- (firstn_skipn k (sort_by _ fl)). apply in_or_app; left; exact Hi. }
    apply IF in H. tauto.
Qed.

(** ** whole calls, exact arithmetic *)
Lemma finite_ofP X : forallb finite_pt (map ofP X) = true.
Proof. rewrite forallb_forall. intros x Hx. apply in_map_iff in Hx. destruct Hx as (y & <- & _). reflexivity. Qed.

Lemma new_tree_exact X : X <> [] -> new_tree (map ofP X) = Ok {| pts := map ofP X; cache := None |}.
Proof. intros H. destruct X as [|x X]; [congruence|]. cbn [map new_tree]. pose proof (finite_ofP (x :: X)) as F. cbn [map] in F. rewrite F. auto. Qed.

Lemma tree_call_exact query (X qs : list rpt) (z : list R) k (p : R) ub t :
  query_ok query -> new_tree (map ofP X) = Ok t -> length z = length X -> qs <> [] -> 2 <= k ->
  exists v, snd (tree_call XRm query t (map ofP qs) (ofR z) k zero (XFin p : XR) (ofU ub)) = Ok v /\ length v = length qs /\
  forall j, j < length qs -> exists used,
    is_nearest (dist_to X (get (0%R, 0%R) qs j)) (length X) k ub used /\
    is_idw (dist_to X (get (0%R, 0%R) qs j)) z p used (get (n_nan : XR) v j).
Proof.
  intros Q HT HZ Hq Hk. unfold new_tree in HT.
  assert (HX : map ofP X <> []) by (intros HX; rewrite HX in HT; discriminate HT).
  assert (t = {| pts := map ofP X; cache := None |}) as ->.
  { rewrite finite_ofP in HT. destruct (map ofP X); [congruence|]. injection HT; auto. }
  unfold tree_call. cbn [pts cache]. rewrite ofR_length, map_length, HZ, Nat.eqb_refl. cbn [negb].
  destruct (Nat.leb_spec k 1); [lia|]. rewrite finite_ofP.
  destruct (map ofP qs) as [|q0 ql] eqn:EQ; [destruct qs; [congruence|discriminate EQ]|]. rewrite <- EQ. cbn [snd].
  eexists. split; [reflexivity|]. unfold numba_idw_loop. rewrite !map_length. split; auto.
  intros j Hj. rewrite get_map with (d := []) by (rewrite !map_length; auto).
  rewrite get_map with (d := ofP (0%R, 0%R)) by (rewrite !map_length; auto).
  rewrite get_map with (d := (0%R, 0%R)) by auto.
  destruct (Q X (get (0%R, 0%R) qs j) k ub) as (used & pad & N & E). exists used. split; auto.
  rewrite E, <- HZ. apply idw_exact.
  - intros i Hi. apply (nn_range _ _ _ _ _ N) in Hi. lia.
  - intros i Hi. apply In_get with (d := 0) in Hi. destruct Hi as (b & Hb & <-). apply (nn_sorted _ _ _ _ _ N); lia.
Qed.
