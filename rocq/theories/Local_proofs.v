From Coq Require Import List ZArith Bool Lia Arith Reals Lra Permutation.
From Flocq Require Import Core.
From Verif Require Import Base Num NumF64 NumList NpOps RealStat Median NearbyWetdry_model NearbyWetdry_spec NearbyWetdry_proofs Local_spec.
Import ListNotations.
Local Open Scope nat_scope.

Section Local.
Context {O : numops} (S : numsem O).
Local Notation V := (val S).

Lemma isnan_V (x : O) : n_isnan x = true -> V x = XNaN.
Proof. rewrite (val_isnan _ S). destruct (V x); try discriminate; auto. Qed.

Lemma same_V (a b : O) : V a = V b -> same_number a b.
Proof.
  intros H. destruct (n_isnan a) eqn:E; [left|right].
  - split; auto. rewrite (val_isnan _ S), <- H, <- (val_isnan _ S). auto.
  - rewrite (val_eqb _ S), H. apply xeqb_true. split; auto. rewrite <- H, <- (val_isnan _ S). auto.
Qed.

Lemma V_div (a b c : O) : V c <> XFin 0 -> V a = V b -> V (n_div a c) = V (n_div b c).
Proof. intros Hc H. rewrite !(val_div _ S) by auto. rewrite H. auto. Qed.

(** ** permutations and sorted lists *)
Lemma perm_transport {A A' B C} (f : A -> B) (g : A' -> B) (h : A -> C) (k : A' -> C) l l' :
  Permutation (map f l) (map g l') -> (forall a a', In a l -> In a' l' -> f a = g a' -> h a = k a') ->
  Permutation (map h l) (map k l').
Proof.
  intros P H. apply Permutation_map_inv in P as (l3 & E & P3).
  assert (Q : map h l = map k l3).
  { assert (H' : forall a a', In a l -> In a' l3 -> f a = g a' -> h a = k a').
    { intros a a' Ha Ha'. apply H; auto. apply (Permutation_in _ (Permutation_sym P3)); auto. }
    clear H P3. revert l3 E H'. induction l as [|a l IH]; intros [|a' l3] E H'; try discriminate; auto.
    injection E as E1 E2. simpl. f_equal; [apply H'; simpl; auto|apply IH; auto]. intros; apply H'; simpl; auto. }
  rewrite Q. apply Permutation_map, Permutation_sym; auto.
Qed.

Fixpoint xsorted (l : list xr) : Prop := match l with [] => True | x :: t => (forall y, In y t -> xleb x y = true) /\ xsorted t end.
Lemma xsorted_unique l : forall l', Permutation l l' -> xsorted l -> xsorted l' -> l = l'.
Proof.
  induction l as [|x l IH]; intros l' P H H'.
  - apply Permutation_nil in P. auto.
  - destruct l' as [|y l']; [apply Permutation_sym, Permutation_nil in P; discriminate|].
    destruct H as [H1 H2], H' as [H1' H2'].
    assert (E : x = y).
    { assert (In y (x :: l)) as [?|I] by (apply (Permutation_in _ (Permutation_sym P)); left; auto); auto.
      assert (In x (y :: l')) as [?|I'] by (apply (Permutation_in _ P); left; auto); auto.
      apply xleb_antisym; auto. }
    subst y. f_equal. apply IH; auto. apply Permutation_cons_inv with x; auto.
Qed.

Lemma sorted_V (s : list O) : (forall i j, i <= j -> j < length s -> n_leb (get n_nan s i) (get n_nan s j) = true) -> xsorted (map V s).
Proof.
  induction s as [|x s IH]; simpl; auto. intros H. split.
  - intros y Hy. apply in_map_iff in Hy as (z & <- & Hz). destruct (In_get n_nan s z Hz) as (j & Hj & <-).
    rewrite <- (val_leb _ S). apply (H 0 (Datatypes.S j)); lia.
  - apply IH. intros i j Hij Hj. apply (H (Datatypes.S i) (Datatypes.S j)); lia.
Qed.

Lemma median_V (l l' : list O) m m' : Permutation (map V l) (map V l') -> l <> [] -> is_median l m -> is_median l' m' -> V m = V m'.
Proof.
  intros P NE (s & Ps & Ss & M1 & M2) (s' & Ps' & Ss' & M1' & M2').
  assert (E : map V s = map V s').
  { apply xsorted_unique; try (apply sorted_V; auto).
    apply perm_trans with (map V l); [apply Permutation_map; auto|]. apply perm_trans with (map V l'); auto. apply Permutation_map, Permutation_sym; auto. }
  assert (L : length s = length s') by (apply (f_equal (@length xr)) in E; rewrite !map_length in E; auto).
  assert (G : forall k, V (get n_nan s k) = V (get n_nan s' k)).
  { intros k. destruct (lt_dec k (length s)).
    - pose proof (f_equal (fun l => get XNaN l k) E) as Q. cbv beta in Q. rewrite !(get_map V n_nan) in Q by lia. exact Q.
    - unfold get. rewrite !nth_overflow by lia. auto. }
  assert (LS : length s <> 0).
  { apply Permutation_length in Ps. destruct l; [congruence|]. simpl in Ps. lia. }
  destruct (Nat.Even_or_Odd (length s)) as [[k K]|[k K]].
  - rewrite (M2 (k - 1)), (M2' (k - 1)) by lia. apply V_div.
    + rewrite (val_ofZ _ S) by (compute; discriminate). intros Q. injection Q as Q. lra.
    + rewrite !(val_add _ S), !G. auto.
  - rewrite (M1 k), (M1' k) by lia. apply G.
Qed.

Lemma filter_V (l : list O) : map V (filter (fun x => negb (n_isnan x)) l) = filter (fun x => negb (xisnan x)) (map V l).
Proof. induction l as [|x l IH]; simpl; auto. rewrite (val_isnan _ S). destruct (xisnan (V x)); simpl; rewrite IH; auto. Qed.

Lemma numbers_V (l l' : list O) : Permutation (map V l) (map V l') -> Permutation (map V (numbers l)) (map V (numbers l')).
Proof.
  intros P. unfold numbers. rewrite !filter_V. revert P. generalize (map V l), (map V l'). clear. intros a b P.
  induction P as [|x a b P IH|x y a|a b c P1 IH1 P2 IH2]; simpl; auto.
  - destruct (negb _); auto.
  - destruct (negb (xisnan x)), (negb (xisnan y)); auto. constructor.
  - eapply perm_trans; eauto.
Qed.

Lemma link_median_V dP dX nb dP' dX' nb' ml t m m' :
  Permutation (map (fun j => V (dP j t)) nb) (map (fun j => V (dP' j t)) nb') ->
  Permutation (map (fun j => V (dX j t)) nb) (map (fun j => V (dX' j t)) nb') ->
  is_link_median dP dX nb ml t m -> is_link_median dP' dX' nb' ml t m' -> V m = V m'.
Proof.
  intros P1 P2 (A1 & A2 & A3) (B1 & B2 & B3).
  rewrite <- (map_map (fun j => dP j t) V), <- (map_map (fun j => dP' j t) V) in P1. apply numbers_V in P1.
  rewrite <- (map_map (fun j => dX j t) V), <- (map_map (fun j => dX' j t) V) in P2. apply numbers_V in P2.
  pose proof (Permutation_length P1) as L1. rewrite !map_length in L1.
  pose proof (Permutation_length P2) as L2. rewrite !map_length in L2.
  destruct (le_lt_dec (length (numbers (map (fun j => dP j t) nb))) ml) as [H|H].
  - rewrite A1, B1 by lia. auto.
  - destruct (numbers (map (fun j => dX j t) nb)) as [|x v] eqn:E.
    + assert (E' : numbers (map (fun j => dX' j t) nb') = []) by (destruct (numbers (map (fun j => dX' j t) nb')); auto; discriminate).
      rewrite A2, B2 by (auto; lia). auto.
    + assert (E' : numbers (map (fun j => dX' j t) nb') <> []) by (destruct (numbers (map (fun j => dX' j t) nb')); [discriminate|congruence]).
      eapply median_V; [exact P2| |apply A3; auto; congruence|apply B3; auto; lia]. congruence.
Qed.

(** ** drops *)
Lemma drop_V pmin pmin' w k dP dP' i i' t : get [] pmin i = get [] pmin' i' ->
  is_drop pmin w k dP i t -> is_drop pmin' w k dP' i' t -> V (dP i t) = V (dP' i' t).
Proof.
  intros E [A1 A2] [B1 B2].
  assert (R : recent w t (cell pmin i) = recent w t (cell pmin' i')).
  { unfold recent. f_equal. apply map_ext. intros j. unfold cell. rewrite E. auto. }
  rewrite R in A1, A2. set (v := recent w t (cell pmin' i')) in *.
  destruct (le_lt_dec k (length v)) as [H|H].
  - destruct (A2 H) as (m & Hm & ->), (B2 H) as (m' & Hm' & ->).
    assert (M : V m = V m').
    { unfold is_max in *.
      assert (N : existsb n_isnan v = false).
      { apply not_true_is_false. intros Q. apply existsb_exists in Q as (x & Hx & Nx). unfold v, recent in Hx. apply filter_In in Hx as [_ Hx].
        rewrite Nx in Hx. discriminate. }
      rewrite N in *. destruct Hm as [I1 U1], Hm' as [I2 U2].
      apply xleb_antisym; rewrite <- (val_leb _ S); auto. }
    rewrite !(val_sub _ S), M. unfold cell. rewrite E. auto.
  - rewrite (isnan_V _ (A1 H)), (isnan_V _ (B1 H)). auto.
Qed.

(** ** one link *)
Lemma cls_V T thrP thrPL mP mPL own mP' mPL' own' t : t < T ->
  (forall u, u < T -> V (mP u) = V (mP' u)) -> (forall u, u < T -> V (mPL u) = V (mPL' u)) -> (forall u, u < T -> V (own u) = V (own' u)) ->
  cls T thrP thrPL mP mPL own t = cls T thrP thrPL mP' mPL' own' t.
Proof.
  intros Ht H1 H2 H3. unfold cls.
  rewrite !(val_isnan _ S), H1, H2 by auto.
  assert (MR : forall u, u < T -> median_rule thrP thrPL mP mPL u = median_rule thrP thrPL mP' mPL' u).
  { intros u Hu. unfold median_rule. rewrite !(val_ltb _ S), H1, H2 by auto. auto. }
  assert (ST : forall u, u < T -> strong thrP thrPL mP mPL own u = strong thrP thrPL mP' mPL' own' u).
  { intros u Hu. unfold strong. rewrite MR, !(val_ltb _ S), H3 by auto. auto. }
  rewrite MR by auto. destruct (Nat.eqb_spec t 0); [reflexivity|]. destruct (Nat.leb_spec T (t + 2)); [reflexivity|].
  rewrite !ST by lia. reflexivity.
Qed.


Lemma fold_V : forall (l l' : list O) z z', V z = V z' -> map V l = map V l' -> V (fold_left n_add l z) = V (fold_left n_add l' z').
Proof.
  induction l as [|x l IH]; intros [|x' l'] z z' Hz E; try discriminate; auto.
  injection E as E1 E2. simpl. apply IH; auto. rewrite !(val_add _ S), Hz, E1. auto.
Qed.

Lemma score_V T interval w dPL mPL dPL' mPL' t : t < T ->
  (forall u, u < T -> V (dPL u) = V (dPL' u)) -> (forall u, u < T -> V (mPL u) = V (mPL' u)) ->
  V (score interval w dPL mPL t) = V (score interval w dPL' mPL' t).
Proof.
  intros Ht H1 H2. unfold score. cbv zeta.
  assert (E : map V (recent w t (fun k => n_sub (dPL k) (mPL k))) = map V (recent w t (fun k => n_sub (dPL' k) (mPL' k)))).
  { unfold recent. rewrite !filter_V, !map_map. f_equal. apply map_ext_in. intros k Hk. apply in_seq in Hk.
    rewrite !(val_sub _ S), H1, H2 by lia. auto. }
  pose proof (f_equal (@length xr) E) as L. rewrite !map_length in L. rewrite !(val_mul _ S), L. f_equal. f_equal.
  destruct (Nat.ltb _ w); auto. apply fold_V; auto.
Qed.

Lemma neighbours_In (d : distances O) radius n i j : In j (neighbours d radius n i) -> j < n.
Proof. unfold neighbours. intros H. apply filter_In in H as [H _]. apply in_seq in H. lia. Qed.

Lemma local_result T pmin lens d radius pmin' lens' d' radius' thrP thrPL ml interval tp mh i i' :
  call_ok T pmin lens d radius interval tp mh -> call_ok T pmin' lens' d' radius' interval tp mh ->
  i < length pmin -> i' < length pmin' ->
  (forall j, j < length pmin -> n_eqb (get n_nan lens j) (n_ofZ 0) = false) ->
  same_surroundings pmin lens d radius i pmin' lens' d' radius' i' ->
  exists wet F wet' F',
    nearby_wetdry T pmin lens d radius thrP thrPL ml interval tp mh = Ok (wet, F) /\
    nearby_wetdry T pmin' lens' d' radius' thrP thrPL ml interval tp mh = Ok (wet', F') /\
    length (get [] wet i) = T /\ length (get [] F i) = T /\ length (get [] F' i') = T /\
    get [] wet i = get [] wet' i' /\
    forall t, t < T -> V (cell F i t) = V (cell F' i' t).
Proof.
  intros C C' Hi Hi' HZ [HD HP]. destruct C as [C1 C2 C3 C4 C5 C6 C7 C8]. destruct C' as [D1 D2 D3 D4 D5 D6 D7 D8].
  destruct (nearby_wetdry_full S T pmin lens d radius thrP thrPL ml interval tp mh) as (wet & F & dP & E & HdP & Lw & LF & G); auto.
  destruct (nearby_wetdry_full S T pmin' lens' d' radius' thrP thrPL ml interval tp mh) as (wet' & F' & dP' & E' & HdP' & Lw' & LF' & G'); auto.
  exists wet, F, wet', F'. split; [exact E|]. split; [exact E'|].
  destruct (G i Hi) as (T1 & T2 & N1 & N2). destruct (G' i' Hi') as (T1' & T2' & N1' & N2'). cbv zeta in *.
  set (nb := neighbours d radius (length pmin) i) in *. set (nb' := neighbours d' radius' (length pmin') i') in *.
  set (dPL := fun j t => n_div (dP j t) (get n_nan lens j)) in *. set (dPL' := fun j t => n_div (dP' j t) (get n_nan lens' j)) in *.
  assert (LN : length nb = length nb') by (apply Permutation_length in HP; rewrite !map_length in HP; auto).
  assert (QP : forall j j' t, j < length pmin -> j' < length pmin' -> t < T -> link_data pmin lens j = link_data pmin' lens' j' -> V (dP j t) = V (dP' j' t)).
  { intros j j' t Hj Hj' Ht Q. injection Q as Q1 Q2. eapply drop_V; eauto. }
  assert (QL : forall j j' t, j < length pmin -> j' < length pmin' -> t < T -> link_data pmin lens j = link_data pmin' lens' j' -> V (dPL j t) = V (dPL' j' t)).
  { intros j j' t Hj Hj' Ht Q. pose proof (QP j j' t Hj Hj' Ht Q) as QQ. injection Q as Q1 Q2. unfold dPL, dPL'. rewrite <- Q2. apply V_div; auto.
    intros K. specialize (HZ j Hj). rewrite (val_eqb _ S), K in HZ. rewrite (val_ofZ _ S) in HZ by (compute; discriminate).
    assert (xeqb (XFin 0) (XFin (IZR 0)) = true) by (apply xeqb_true; auto). congruence. }
  split; [exact T1|]. split; [exact T2|]. split; [exact T2'|].
  destruct (le_lt_dec (length nb) ml) as [Hm|Hm].
  - split.
    + apply (get_ext (n_nan : O)); [congruence|]. intros t Ht. rewrite T1 in Ht.
      destruct (N1 Hm t Ht) as [Q _]. destruct (N1' ltac:(lia) t Ht) as [Q' _]. unfold cell in Q, Q'. congruence.
    + intros t Ht. destruct (N1 Hm t Ht) as [_ ->]. destruct (N1' ltac:(lia) t Ht) as [_ ->]. auto.
  - destruct (N2 Hm) as (mP & mPL & H). destruct (N2' ltac:(lia)) as (mP' & mPL' & H').
    assert (PP : forall t, t < T -> Permutation (map (fun j => V (dP j t)) nb) (map (fun j => V (dP' j t)) nb')).
    { intros t Ht. eapply perm_transport; [exact HP|]. intros a a' Ha Ha' Q. apply QP; auto; eapply neighbours_In; eauto. }
    assert (PL : forall t, t < T -> Permutation (map (fun j => V (dPL j t)) nb) (map (fun j => V (dPL' j t)) nb')).
    { intros t Ht. eapply perm_transport; [exact HP|]. intros a a' Ha Ha' Q. apply QL; auto; eapply neighbours_In; eauto. }
    assert (EP : forall t, t < T -> V (mP t) = V (mP' t)).
    { intros t Ht. destruct (H t Ht) as (A1 & A2 & _), (H' t Ht) as (B1 & B2 & _). exact (link_median_V _ _ _ _ _ _ _ _ _ _ (PP t Ht) (PP t Ht) A1 B1). }
    assert (EL : forall t, t < T -> V (mPL t) = V (mPL' t)).
    { intros t Ht. destruct (H t Ht) as (A1 & A2 & _), (H' t Ht) as (B1 & B2 & _). exact (link_median_V _ _ _ _ _ _ _ _ _ _ (PP t Ht) (PL t Ht) A2 B2). }
    split.
    + apply (get_ext (n_nan : O)); [congruence|]. intros t Ht. rewrite T1 in Ht.
      destruct (H t Ht) as (_ & _ & A3 & _), (H' t Ht) as (_ & _ & B3 & _). unfold cell in A3, B3. rewrite A3, B3.
      apply cls_V; auto.
    + intros t Ht. destruct (H t Ht) as (_ & _ & _ & A4), (H' t Ht) as (_ & _ & _ & B4). rewrite A4, B4.
      apply score_V with T; auto. intros u Hu. apply (QL i i' u); auto.
Qed.

(** ** reordering *)
Lemma filter_perm {A} (f : A -> bool) l l' : Permutation l l' -> Permutation (filter f l) (filter f l').
Proof.
  intros P. induction P as [|x a b P IH|x y a|a b c P1 IH1 P2 IH2]; simpl; auto.
  - destruct (f x); auto.
  - destruct (f x), (f y); auto. constructor.
  - eapply perm_trans; eauto.
Qed.
Lemma reorder_length {A : Type} (z : A) p l : length (reorder z p l) = length p.
Proof. apply map_length. Qed.
Lemma get_reorder {A} (z : A) p l k : k < length p -> get z (reorder z p l) k = get z l (get 0 p k).
Proof. intros. unfold reorder. rewrite (get_map (get z l) 0) by auto. auto. Qed.
Lemma cell_reorder (m : list (list O)) p k l : k < length p -> l < length p ->
  cell (reorder_square p m) k l = cell m (get 0 p k) (get 0 p l).
Proof.
  intros. unfold cell, reorder_square. rewrite (get_map (fun i => reorder n_nan p (get [] m i)) 0) by auto.
  rewrite get_reorder by auto. auto.
Qed.
Lemma neighbour_reorder (d : distances O) (radius : O) p k l : k < length p -> l < length p ->
  neighbour (reorder_distances p d) radius k l = neighbour d radius (get 0 p k) (get 0 p l).
Proof. intros. unfold neighbour. simpl. rewrite !cell_reorder by auto. auto. Qed.

Lemma map_filter_comm {A B} (f : A -> B) (g : B -> bool) (h : A -> bool) l : (forall x, In x l -> h x = g (f x)) -> map f (filter h l) = filter g (map f l).
Proof.
  induction l as [|x l IH]; intros H; simpl; auto. rewrite <- (H x) by (left; auto). destruct (h x); simpl; rewrite IH; auto; intros; apply H; right; auto.
Qed.
Lemma map_get_seq (p : list nat) : map (get 0 p) (seq 0 (length p)) = p.
Proof.
  apply (get_ext 0); [rewrite map_length, seq_length; auto|]. intros k Hk. rewrite map_length, seq_length in Hk.
  rewrite (get_map (get 0 p) 0) by (rewrite seq_length; auto). unfold get at 2. rewrite seq_nth by auto. auto.
Qed.

Section Reorder.
Variables (p : list nat) (T : nat) (pmin : list (list O)) (lens : list O) (d : distances O) (radius : O) (interval tp mh : nat).
Hypothesis (HP : Permutation p (seq 0 (length pmin))) (C : call_ok T pmin lens d radius interval tp mh).
Let n := length pmin.
Lemma p_len : length p = n. Proof using HP. apply Permutation_length in HP. rewrite seq_length in HP. auto. Qed.
Lemma p_lt k : k < n -> get 0 p k < n.
Proof using HP.
  intros Hk. assert (In (get 0 p k) (seq 0 n)) as I by (apply (Permutation_in _ HP), get_In; rewrite p_len; auto).
  apply in_seq in I. lia.
Qed.

Lemma reorder_ok : call_ok T (reorder [] p pmin) (reorder n_nan p lens) (reorder_distances p d) radius interval tp mh.
Proof using HP C.
  destruct C as [C1 C2 C3 C4 C5 C6 C7 C8]. pose proof p_len as L. pose proof p_lt as B.
  constructor; auto; rewrite ?reorder_length, ?L; auto.
  - intros i Hi. rewrite get_reorder by lia. apply C1, B; auto.
  - intros m Hm. assert (exists m', m = reorder_square p m') as (m' & ->).
    { simpl in Hm. destruct Hm as [<-|[<-|[<-|[<-|[]]]]]; eexists; reflexivity. }
    unfold reorder_square. rewrite map_length. split; auto. intros i Hi. rewrite (get_map (fun i => reorder n_nan p (get [] m' i)) 0) by lia.
    rewrite reorder_length. auto.
  - intros i Hi. rewrite neighbour_reorder by lia. apply C8, B; auto.
Qed.

Lemma reorder_surroundings k : k < n ->
  same_surroundings pmin lens d radius (get 0 p k) (reorder [] p pmin) (reorder n_nan p lens) (reorder_distances p d) radius k.
Proof using HP.
  intros Hk. pose proof p_len as L. unfold same_surroundings. rewrite reorder_length, L.
  assert (LD : forall j, j < n -> link_data (reorder [] p pmin) (reorder n_nan p lens) j = link_data pmin lens (get 0 p j)).
  { intros j Hj. unfold link_data. rewrite !get_reorder by lia. auto. }
  split; [symmetry; auto|].
  rewrite (map_ext_in (link_data (reorder [] p pmin) (reorder n_nan p lens)) (fun j => link_data pmin lens (get 0 p j))) by (intros a Ha; apply LD; eapply neighbours_In; eauto).
  rewrite <- (map_map (get 0 p) (link_data pmin lens)). apply Permutation_map.
  unfold neighbours. rewrite (map_filter_comm (get 0 p) (neighbour d radius (get 0 p k))).
  - rewrite <- L, map_get_seq. apply filter_perm, Permutation_sym. exact HP.
  - intros x Hx. apply in_seq in Hx. apply neighbour_reorder; lia.
Qed.
End Reorder.

Lemma local_classification T (pmin : list (list O)) lens d radius pmin' lens' d' radius' thrP thrPL ml interval tp mh i i' :
  call_ok T pmin lens d radius interval tp mh -> call_ok T pmin' lens' d' radius' interval tp mh ->
  i < length pmin -> i' < length pmin' ->
  (forall j, j < length pmin -> n_eqb (get n_nan lens j) (n_ofZ 0) = false) ->
  same_surroundings pmin lens d radius i pmin' lens' d' radius' i' ->
  exists wet F wet' F',
    nearby_wetdry T pmin lens d radius thrP thrPL ml interval tp mh = Ok (wet, F) /\
    nearby_wetdry T pmin' lens' d' radius' thrP thrPL ml interval tp mh = Ok (wet', F') /\
    length (get [] wet i) = T /\ length (get [] F i) = T /\ length (get [] F' i') = T /\
    get [] wet i = get [] wet' i' /\
    forall t, t < T -> same_number (cell F i t) (cell F' i' t).
Proof.
  intros. destruct (local_result T pmin lens d radius pmin' lens' d' radius' thrP thrPL ml interval tp mh i i') as (w & F & w' & F' & E & E' & L1 & L2 & L3 & Q & G); auto.
  exists w, F, w', F'. repeat (split; [assumption|]). intros. apply same_V; auto.
Qed.

Lemma order_of_links p T (pmin : list (list O)) lens d radius thrP thrPL ml interval tp mh :
  call_ok T pmin lens d radius interval tp mh -> Permutation p (seq 0 (length pmin)) ->
  (forall j, j < length pmin -> n_eqb (get n_nan lens j) (n_ofZ 0) = false) ->
  exists wet F wet' F',
    nearby_wetdry T pmin lens d radius thrP thrPL ml interval tp mh = Ok (wet, F) /\
    nearby_wetdry T (reorder [] p pmin) (reorder n_nan p lens) (reorder_distances p d) radius thrP thrPL ml interval tp mh = Ok (wet', F') /\
    wet' = reorder [] p wet /\
    length F' = length F /\ forall k t, k < length pmin -> t < T -> same_number (cell F' k t) (cell F (get 0 p k) t).
Proof.
  intros C HP HZ. pose proof (reorder_ok p T pmin lens d radius interval tp mh HP C) as C'. pose proof C as CC. pose proof C' as CC'.
  destruct CC as [C1 C2 C3 C4 C5 C6 C7 C8]. destruct CC' as [D1 D2 D3 D4 D5 D6 D7 D8].
  destruct (nearby_wetdry_full S T pmin lens d radius thrP thrPL ml interval tp mh) as (wet & F & dP & E & _ & Lw & LF & _); auto.
  destruct (nearby_wetdry_full S T (reorder [] p pmin) (reorder n_nan p lens) (reorder_distances p d) radius thrP thrPL ml interval tp mh) as (wet' & F' & dP' & E' & _ & Lw' & LF' & _); auto.
  exists wet, F, wet', F'. split; [exact E|]. split; [exact E'|].
  pose proof (p_len p pmin HP) as L. rewrite reorder_length in *.
  assert (G : forall k, k < length pmin -> get [] wet' k = get [] wet (get 0 p k) /\ forall t, t < T -> same_number (cell F' k t) (cell F (get 0 p k) t)).
  { intros k Hk. destruct (local_result T pmin lens d radius (reorder [] p pmin) (reorder n_nan p lens) (reorder_distances p d) radius thrP thrPL ml interval tp mh (get 0 p k) k)
      as (w & f & w' & f' & K & K' & _ & _ & _ & Q & R); auto.
    - apply (p_lt p pmin HP); auto.
    - rewrite reorder_length. lia.
    - apply reorder_surroundings; auto.
    - rewrite E in K. injection K as <- <-. rewrite E' in K'. injection K' as <- <-. split; auto. intros t Ht. apply same_V. symmetry. auto. }
  split; [|split; [lia|]].
  - apply (get_ext ([] : list O)); [rewrite reorder_length; lia|]. intros k Hk. rewrite get_reorder by lia. apply G. lia.
  - intros k t Hk Ht. apply G; auto.
Qed.
End Local.
