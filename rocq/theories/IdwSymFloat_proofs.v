(** * Symmetries of inverse distance weighting in binary64 *)
From Coq Require Import List ZArith Bool Reals Lra Lia Arith Permutation Sorted Classical.
From Flocq Require Import Core IEEE754.BinarySingleNaN.
From Verif Require Import Base Num NumF64 NumList NpOps Libm RealSpec KR_proofs Idw_model Idw_spec Idw_proofs IdwSym_proofs IdwFloat_proofs SumFloat_proofs ShiftFloat_proofs IdwSymFloat_spec.
Import ListNotations.
Local Open Scope nat_scope.

(** ** selections of elements with distinct keys *)
Section Sel.
Variables (E : Type) (key : E -> R).
Definition gstrict (l : list E) : Prop := StronglySorted (fun a b => (key a < key b)%R) l.
Lemma gstrict_nodup l : gstrict l -> NoDup l.
Proof using. induction 1 as [|a l H IH F]; constructor; auto. intros I. rewrite Forall_forall in F. apply F in I. lra. Qed.
Lemma gstrict_unique l : forall l', gstrict l -> gstrict l' -> (forall e, In e l <-> In e l') -> l = l'.
Proof using.
  induction l as [|a l IH]; intros [|b l'] S1 S2 H; auto.
  - exfalso. apply (H b). left; auto.
  - exfalso. apply (H a). left; auto.
  - inversion S1 as [|a1 l1 S1' F1]; subst. inversion S2 as [|b1 l2 S2' F2]; subst. rewrite Forall_forall in F1, F2.
    assert (a = b).
    { destruct (proj1 (H a) (or_introl eq_refl)) as [Q|Q]; auto. destruct (proj2 (H b) (or_introl eq_refl)) as [Q'|Q']; auto.
      apply F2 in Q. apply F1 in Q'. lra. }
    subst b. f_equal. apply IH; auto. intros e. split; intros He.
    + destruct (proj1 (H e) (or_intror He)) as [Q|Q]; auto. subst e. apply F1 in He. lra.
    + destruct (proj2 (H e) (or_intror He)) as [Q|Q]; auto. subst e. apply F2 in He. lra.
Qed.
Record gsel (P : E -> Prop) (k : nat) (l : list E) : Prop := {
  gs_strict : gstrict l; gs_in : forall e, In e l -> P e; gs_count : length l <= k;
  gs_rest : forall e, P e -> ~ In e l -> length l = k /\ forall f, In f l -> (key f <= key e)%R }.
Lemma gsel_sub (P : E -> Prop) k l l' : (forall e f, P e -> P f -> key e = key f -> e = f) -> gsel P k l -> gsel P k l' -> incl l l'.
Proof using.
  intros HP A B e He. destruct (classic (In e l')) as [|NE]; auto. exfalso.
  destruct (gs_rest _ _ _ B e (gs_in _ _ _ A e He) NE) as [Lk F].
  assert (I : incl l' l).
  { intros f Hf. destruct (classic (In f l)) as [|NF]; auto. exfalso.
    destruct (gs_rest _ _ _ A f (gs_in _ _ _ B f Hf) NF) as [_ G]. pose proof (F f Hf). pose proof (G e He).
    assert (e = f) by (apply HP; [apply (gs_in _ _ _ A); auto|apply (gs_in _ _ _ B); auto|lra]). subst. auto. }
  assert (ND : NoDup (e :: l')) by (constructor; auto; apply gstrict_nodup, (gs_strict _ _ _ B)).
  assert (K : incl (e :: l') l) by (intros f [<-|Hf]; auto).
  pose proof (NoDup_incl_length ND K) as LL. cbn [length] in LL. pose proof (gs_count _ _ _ A). lia.
Qed.
Lemma gsel_unique (P : E -> Prop) k l l' : (forall e f, P e -> P f -> key e = key f -> e = f) -> gsel P k l -> gsel P k l' -> l = l'.
Proof using.
  intros HP A B. apply gstrict_unique; [apply (gs_strict _ _ _ A)|apply (gs_strict _ _ _ B)|].
  intros e. split; apply (gsel_sub P k); auto.
Qed.
(** nearest neighbours select among the elements in range *)
Variables (d : nat -> R) (g : nat -> E) (n : nat).
Hypothesis HG : forall i, i < n -> key (g i) = d i.
Definition gpairs (ub : option R) (e : E) : Prop := exists i, i < n /\ in_range d ub i /\ e = g i.
Lemma nearest_gsel k ub used : injective d n -> is_nearest d n k ub used -> gsel (gpairs ub) k (map g used).
Proof using HG.
  intros HI [C1 C2 C3 C4 C5].
  assert (U : forall a, a < length used -> get 0 used a < n) by (intros a Ha; apply C3, get_In; auto).
  constructor.
  - unfold gstrict. assert (G : forall a, StronglySorted (fun x y => (key x < key y)%R) (map g (skipn a used))).
    { intros a. remember (length used - a) as m eqn:Em. revert a Em. induction m as [|m IH]; intros a Em.
      - rewrite skipn_all2 by lia. constructor.
      - assert (Ha : a < length used) by lia.
        assert (ES : skipn a used = get 0 used a :: skipn (S a) used).
        { clear - Ha. revert a Ha. induction used as [|x l IH]; intros a Ha; [cbn in Ha; lia|]. destruct a; auto. cbn in Ha. cbn [skipn]. rewrite IH by lia. reflexivity. }
        rewrite ES. cbn [map]. constructor; [apply IH; lia|]. rewrite Forall_forall. intros e He. apply in_map_iff in He. destruct He as (i & <- & Hi).
        apply In_get with (d := 0) in Hi. destruct Hi as (b & Hb & <-). rewrite skipn_length in Hb.
        rewrite skipn_get. rewrite !HG by (apply U; lia). pose proof (C4 a (S a + b) ltac:(lia) ltac:(lia)) as LE.
        destruct LE as [LE|LE]; auto. exfalso.
        pose proof (HI _ _ (U a ltac:(lia)) (U (S a + b) ltac:(lia)) LE) as EI. unfold get in EI.
        pose proof (proj1 (NoDup_nth used 0) C2 a (S a + b) ltac:(lia) ltac:(lia) EI). lia. }
    exact (G 0).
  - intros e He. apply in_map_iff in He. destruct He as (i & <- & Hi). destruct (C3 i Hi). exists i. auto.
  - rewrite map_length. auto.
  - intros e (i & Hi & HR & ->) NI. destruct (in_dec Nat.eq_dec i used) as [Hu|Hu].
    + exfalso. apply NI. apply in_map_iff. exists i. auto.
    + destruct (C5 i Hi Hu HR) as [L G]. rewrite map_length. split; auto. intros f Hf. apply in_map_iff in Hf. destruct Hf as (j & <- & Hj).
      rewrite !HG; auto. apply C3; auto.
Qed.
End Sel.

(** ** the value is a function of the list of (squared distance, value) *)
Section Pairs.
Context {O : numops} (L : libm O).
Definition idw_pairs (p : O) (l : list (O * O)) : O :=
  match l with
  | [] => n_nan
  | (s0, z0) :: _ =>
      if n_ltb (n_sqrt s0) (n_lit 1 10) then z0
      else let w := map (fun e => n_div one (m_pow L (n_sqrt (fst e)) p)) l in
           n_sum (map2 n_mul (map (fun x => n_div x (n_sum w)) w) (map snd l))
  end.
Lemma idw_one_pairs (z : list O) p (s : nat -> O) used pad m : (forall i, In i used -> i < length z) ->
  idw_one L z p (map (fun i => (n_sqrt (s i), i)) used ++ repeat (pad, length z) m) = idw_pairs p (map (fun i => (s i, nget z i)) used).
Proof using.
  intros H. unfold idw_one.
  assert (F : filter (fun e : O * nat => Nat.ltb (snd e) (length z)) (map (fun i => (n_sqrt (s i), i)) used ++ repeat (pad, length z) m) = map (fun i => (n_sqrt (s i), i)) used).
  { induction used as [|i u IH].
    - cbn [map app]. induction m as [|m IH]; [reflexivity|]. cbn [repeat filter snd]. rewrite Nat.ltb_irrefl. exact IH.
    - cbn [map app filter snd]. destruct (Nat.ltb_spec i (length z)) as [_|Q]; [|pose proof (H i (or_introl eq_refl)); lia].
      f_equal. apply IH. intros j J. apply H. right; auto. }
  rewrite F. destruct used as [|i0 u]; [reflexivity|]. cbn [map]. unfold idw_pairs. destruct (n_ltb (n_sqrt (s i0)) (n_lit 1 10)); [reflexivity|].
  cbv zeta. cbn [map fst snd]. rewrite !map_map. cbn [fst snd]. reflexivity.
Qed.
End Pairs.
Lemma combine_get {A B} (f : A -> B) (X : list A) (a : A) {C} (z : list C) (c : C) : length z = length X ->
  combine (map f X) z = map (fun i => (f (get a X i), get c z i)) (seq 0 (length X)).
Proof.
  revert z. induction X as [|x X IH]; intros [|y z] H; try discriminate; auto.
  cbn [map combine length seq]. f_equal. rewrite IH by (cbn in H; lia). rewrite <- seq_shift, map_map. reflexivity.
Qed.
Lemma map_get {A B} (f : A -> B) (X : list A) (a : A) : map f X = map (fun i => f (get a X i)) (seq 0 (length X)).
Proof. induction X as [|x X IH]; auto. cbn [map length seq]. f_equal. rewrite IH, <- seq_shift, map_map. reflexivity. Qed.
Notation dflt := (n_nan, n_nan).
Lemma nodup_injective (d : nat -> R) n : NoDup (map d (seq 0 n)) -> injective d n.
Proof.
  intros ND a b Ha Hb E. pose proof (proj1 (NoDup_nth (map d (seq 0 n)) (d 0)) ND a b) as U. rewrite !map_length, !seq_length in U.
  apply U; auto. rewrite !map_nth, !seq_nth by auto. exact E.
Qed.
Lemma combine_fst {A B} (a : list A) : forall b : list B, length a = length b -> map fst (combine a b) = a.
Proof. induction a as [|x a IH]; intros [|y b] E; try discriminate; auto. cbn. f_equal. apply IH. cbn in E. lia. Qed.

Theorem only_sqdist (L : libm F64) query query' (X X' qs qs' : list place) (z z' : list F64) k (p : F64) (ub : option F64) t t' v v' :
  search_ok query -> search_ok query' -> new_tree X = Ok t -> new_tree X' = Ok t' -> length qs = length qs' ->
  (forall u, ub = Some u -> number (n_mul u u)) ->
  (forall j, j < length qs -> let q := get dflt qs j in let q' := get dflt qs' j in
     told_apart q X /\ Permutation (combine (map (sqdist q) X) z) (combine (map (sqdist q') X') z')) ->
  snd (tree_call L query t qs z k zero p ub) = Ok v -> snd (tree_call L query' t' qs' z' k zero p ub) = Ok v' -> v = v'.
Proof.
  intros Q Q' HT HT' Hl Hu H HV HV'.
  destruct (tree_call_get L query X t qs z k zero p ub v HT HV) as (LV & HZ & G).
  destruct (tree_call_get L query' X' t' qs' z' k zero p ub v' HT' HV') as (LV' & HZ' & G').
  apply (get_ext (n_nan : F64)); [exact (eq_trans LV (eq_trans Hl (eq_sym LV')))|]. intros j Hj. assert (Hj2 : j < length qs) by exact (eq_ind _ (fun n => j < n) Hj _ LV). clear Hj. rename Hj2 into Hj. assert (Hj' : j < length qs') by exact (eq_ind _ (fun n => j < n) Hj _ Hl).
  change (nget v j = nget v' j). rewrite (G j dflt Hj), (G' j dflt Hj'). clear G G'.
  destruct (H j Hj) as [[N ND] P]. set (q := get dflt qs j) in *. set (q' := get dflt qs' j) in *.
  assert (P1 : Permutation (map (sqdist q) X) (map (sqdist q') X')).
  { pose proof (Permutation_map fst P) as PM. rewrite !combine_fst in PM by (rewrite map_length; auto). exact PM. }
  assert (N' : forall x, In x X' -> number (sqdist q' x)).
  { intros x Hx. assert (I : In (sqdist q' x) (map (sqdist q) X)) by (apply (Permutation_in _ (Permutation_sym P1)), in_map, Hx).
    apply in_map_iff in I as (y & <- & Hy). apply N. exact Hy. }
  destruct (Q X q k ub N Hu) as (u & pad & NU & EU). destruct (Q' X' q' k ub N' Hu) as (u' & pad' & NU' & EU').
  rewrite EU, EU', <- HZ, <- HZ'.
  rewrite (idw_one_pairs L z p (fun i => sqdist q (get dflt X i))) by (intros i Hi; apply (nn_range _ _ _ _ _ NU) in Hi; lia).
  rewrite (idw_one_pairs L z' p (fun i => sqdist q' (get dflt X' i))) by (intros i Hi; apply (nn_range _ _ _ _ _ NU') in Hi; lia).
  f_equal.
  set (d := fun i => B2R (sqdist q (get dflt X i))) in *. set (d' := fun i => B2R (sqdist q' (get dflt X' i))) in *.
  assert (J : injective d (length X)).
  { apply nodup_injective. unfold d. rewrite <- (map_get (fun x => B2R (sqdist q x)) X dflt). exact ND. }
  assert (J' : injective d' (length X')).
  { apply nodup_injective. unfold d'. rewrite <- (map_get (fun x => B2R (sqdist q' x)) X' dflt). rewrite <- (map_map (sqdist q') (fun x : F64 => B2R x)).
    eapply Permutation_NoDup; [apply Permutation_map; exact P1|]. rewrite map_map. exact ND. }
  set (g := fun i => (sqdist q (get dflt X i), nget z i)) in *. set (g' := fun i => (sqdist q' (get dflt X' i), nget z' i)) in *.
  set (key := fun e : F64 * F64 => B2R (fst e)).
  pose proof (nearest_gsel _ key d g (length X) (fun i _ => eq_refl) k _ u J NU) as S1.
  pose proof (nearest_gsel _ key d' g' (length X') (fun i _ => eq_refl) k _ u' J' NU') as S2.
  rewrite (combine_get (sqdist q) X dflt z n_nan HZ), (combine_get (sqdist q') X' dflt z' n_nan HZ') in P.
  change (Permutation (map g (seq 0 (length X))) (map g' (seq 0 (length X')))) in P.
  assert (PP : forall ubr e, gpairs _ d g (length X) ubr e <-> gpairs _ d' g' (length X') ubr e).
  { intros ubr e. assert (A : forall (d : nat -> R) (g : nat -> F64 * F64) n, (forall i, key (g i) = d i) -> (gpairs _ d g n ubr e <-> In e (map g (seq 0 n)) /\ match ubr with None => True | Some r => (key e < r)%R end)).
    { clear. intros d g n K. unfold gpairs, in_range. split.
      - intros (i & Hi & HR & ->). split; [apply in_map_iff; exists i; split; auto; apply in_seq; lia|destruct ubr; auto]. rewrite K. exact HR.
      - intros [I HR]. apply in_map_iff in I. destruct I as (i & <- & Hi). apply in_seq in Hi. exists i. split; [lia|]. split; auto. destruct ubr; auto. rewrite <- K. exact HR. }
    rewrite (A d g) by reflexivity. rewrite (A d' g') by reflexivity.
    split; intros [B C]; split; auto; [apply Permutation_in with (1 := P)|apply Permutation_in with (1 := Permutation_sym P)]; auto. }
  apply (gsel_unique _ key (gpairs _ d g (length X) (option_map (fun u : F64 => B2R (n_mul u u)) ub)) k).
  - intros e f (a & Ha & _ & ->) (b & Hb & _ & ->) E. rewrite (J a b Ha Hb E). reflexivity.
  - exact S1.
  - destruct S2 as [T1 T2 T3 T4]. constructor; auto; intros e He; [apply PP; auto|apply T4, PP; auto].
Qed.

(** ** moved networks and other orders *)
Lemma moved_places (L : libm F64) query query' (X qs : list place) (f : place -> place) (z : list F64) k (p : F64) ub t t' v v' :
  search_ok query -> search_ok query' -> new_tree X = Ok t -> new_tree (map f X) = Ok t' ->
  (forall u, ub = Some u -> number (n_mul u u)) ->
  (forall q x, In q qs -> In x X -> sqdist (f q) (f x) = sqdist q x) -> (forall q, In q qs -> told_apart q X) ->
  snd (tree_call L query t qs z k zero p ub) = Ok v -> snd (tree_call L query' t' (map f qs) z k zero p ub) = Ok v' -> v = v'.
Proof.
  intros Q Q' HT HT' Hu HF HD HV HV'.
  apply (only_sqdist L query query' X (map f X) qs (map f qs) z z k p ub t t'); auto; [rewrite map_length; auto|].
  intros j Hj. cbv zeta. assert (I : In (get dflt qs j) qs) by (apply get_In; auto). split; [apply HD; exact I|].
  rewrite get_map with (d := dflt) by auto. rewrite map_map.
  rewrite (map_ext_in (fun x => sqdist (f (get dflt qs j)) (f x)) (sqdist (get dflt qs j))) by (intros; apply HF; auto). apply Permutation_refl.
Qed.
Lemma combine_map_l {A B C} (f : A -> B) (a : list A) : forall c : list C, combine (map f a) c = map (fun e => (f (fst e), snd e)) (combine a c).
Proof. induction a as [|x a IH]; intros [|y c]; auto. cbn. f_equal. apply IH. Qed.
Lemma other_order (L : libm F64) query query' (X X' qs : list place) (z z' : list F64) k (p : F64) ub t t' v v' :
  search_ok query -> search_ok query' -> new_tree X = Ok t -> new_tree X' = Ok t' -> Permutation (combine X z) (combine X' z') ->
  (forall u, ub = Some u -> number (n_mul u u)) -> (forall q, In q qs -> told_apart q X) ->
  snd (tree_call L query t qs z k zero p ub) = Ok v -> snd (tree_call L query' t' qs z' k zero p ub) = Ok v' -> v = v'.
Proof.
  intros Q Q' HT HT' HP Hu HD HV HV'.
  apply (only_sqdist L query query' X X' qs qs z z' k p ub t t'); auto.
  intros j Hj. cbv zeta. assert (I : In (get dflt qs j) qs) by (apply get_In; auto). split; [apply HD; exact I|].
  rewrite !combine_map_l. apply Permutation_map. exact HP.
Qed.

(** ** squared distances under coordinate changes *)
Local Open Scope R_scope.
Lemma square_not_mz (d : f64) : f_mul d d <> mz.
Proof.
  destruct (is_finite d) eqn:F; [|destruct d; try discriminate F; intros Q; discriminate Q].
  intros Q. pose proof (Bmult_correct 53 1024 _ _ mode_NE d d) as C. change (Bmult mode_NE d d) with (f_mul d d) in C. rewrite Q in C.
  destruct (Rlt_bool _ _).
  - destruct C as (_ & _ & C). specialize (C eq_refl). cbn in C. destruct (Bsign d); discriminate C.
  - discriminate C.
Qed.
Lemma square_same (d e : f64) : f_val d = f_val e \/ f_val d = xopp (f_val e) -> f_mul d d = f_mul e e.
Proof.
  intros H. apply val_inj; [|apply square_not_mz|apply square_not_mz]. rewrite !f_val_mul. f_equal. destruct H as [H|H]; rewrite H; [reflexivity|].
  destruct (f_val e) as [| |r|]; cbn; try reflexivity. f_equal. ring.
Qed.
Lemma sqdist_same (a b a' b' : place) :
  (f_val (n_sub (fst a) (fst b)) = f_val (n_sub (fst a') (fst b')) \/ f_val (n_sub (fst a) (fst b)) = xopp (f_val (n_sub (fst a') (fst b')))) ->
  (f_val (n_sub (snd a) (snd b)) = f_val (n_sub (snd a') (snd b')) \/ f_val (n_sub (snd a) (snd b)) = xopp (f_val (n_sub (snd a') (snd b')))) ->
  sqdist a b = sqdist a' b'.
Proof.
  intros H1 H2. unfold sqdist.
  change (f_add (f_mul (n_sub (fst a) (fst b)) (n_sub (fst a) (fst b))) (f_mul (n_sub (snd a) (snd b)) (n_sub (snd a) (snd b))) =
          f_add (f_mul (n_sub (fst a') (fst b')) (n_sub (fst a') (fst b'))) (f_mul (n_sub (snd a') (snd b')) (n_sub (snd a') (snd b')))).
  rewrite (square_same _ _ H1), (square_same _ _ H2). reflexivity.
Qed.
Lemma rnd_opp x : f_rnd (xopp x) = xopp (f_rnd x).
Proof.
  destruct x as [| |r|]; try reflexivity. cbn [xopp]. unfold f_rnd.
  assert (E : rnd64 (- r) = - rnd64 r) by (apply round_NE_opp). rewrite E, Rabs_Ropp. destruct (Rlt_bool_spec (Rabs (rnd64 r)) (bpow radix2 1024)) as [A|A]; [reflexivity|].
  assert (NZ : r <> 0).
  { intros ->. unfold rnd64 in A. rewrite round_0 in A by typeclasses eauto. rewrite Rabs_R0 in A. pose proof (bpow_gt_0 radix2 1024). lra. }
  destruct (Rlt_bool_spec r 0) as [B|B]; destruct (Rlt_bool_spec (- r) 0) as [C|C]; cbn; try reflexivity; exfalso; lra.
Qed.
Lemma sub_opp (x y : F64) : f_val (n_sub (n_opp x) (n_opp y)) = xopp (f_val (n_sub x y)).
Proof.
  pose proof (val_sub _ F64sem (n_opp x) (n_opp y)) as A. pose proof (val_sub _ F64sem x y) as B. rewrite !(val_opp _ F64sem) in A.
  change (f_val (n_sub (n_opp x) (n_opp y))) with (val F64sem (n_sub (n_opp x) (n_opp y))). change (f_val (n_sub x y)) with (val F64sem (n_sub x y)).
  rewrite A, B. change (rnd F64sem) with f_rnd. rewrite <- rnd_opp. f_equal. unfold xsub.
  destruct (val F64sem x) as [| |r|], (val F64sem y) as [| |s|]; cbn; try reflexivity. f_equal. ring.
Qed.
Lemma mirror_x_same a b : sqdist (mirror_x a) (mirror_x b) = sqdist a b.
Proof. apply sqdist_same; [right; apply sub_opp|left; reflexivity]. Qed.
Lemma mirror_y_same a b : sqdist (mirror_y a) (mirror_y b) = sqdist a b.
Proof. apply sqdist_same; [left; reflexivity|right; apply sub_opp]. Qed.
Lemma exchange_same a b : sqdist (exchange a) (exchange b) = sqdist a b.
Proof.
  unfold sqdist, exchange. cbn [fst snd]. set (u := n_sub (fst a) (fst b)). set (w := n_sub (snd a) (snd b)).
  change (f_add (f_mul w w) (f_mul u u) = f_add (f_mul u u) (f_mul w w)).
  apply val_inj; [|apply add_not_mz, square_not_mz|apply add_not_mz, square_not_mz]. rewrite !f_val_add. f_equal.
  destruct (f_val (f_mul u u)), (f_val (f_mul w w)); cbn; try reflexivity. f_equal. ring.
Qed.
Lemma raster_sub q (x y c : F64) : (0 <= q <= 900)%Z -> on_raster q x -> on_raster q y -> on_raster q c -> f_val (n_sub (n_add x c) (n_add y c)) = f_val (n_sub x y).
Proof.
  intros Hq (a & A & EA) (b & B & EB) (e & C & EC).
  change (n_sub (n_add x c) (n_add y c)) with (f_sub (f_add x c) (f_add y c)). change (n_sub x y) with (f_sub x y).
  rewrite !f_val_sub, !f_val_add, EA, EB, EC. cbn [xadd]. rewrite <- !Rmult_plus_distr_r, <- !plus_IZR.
  rewrite !rnd_grid by lia. unfold xsub. cbn [xopp xadd]. f_equal. f_equal. rewrite !plus_IZR. ring.
Qed.
Lemma shifted_same q cx cy a b : (0 <= q <= 900)%Z -> on_raster q cx -> on_raster q cy -> place_on_raster q a -> place_on_raster q b ->
  sqdist (shifted cx cy a) (shifted cx cy b) = sqdist a b.
Proof.
  intros Hq CX CY [A1 A2] [B1 B2]. apply sqdist_same; left; cbn [shifted fst snd]; apply (raster_sub q); auto.
Qed.

(** ** a search that meets the contract *)
Local Open Scope nat_scope.
Definition square_search (X : list place) (q : place) (k : nat) (eps : F64) (ub : option F64) : list (F64 * nat) :=
  let s := fun i => sqdist q (get dflt X i) in
  let inside := fun i => match ub with None => true | Some u => n_ltb (s i) (n_mul u u) end in
  let used := firstn k (sort_by s (filter inside (seq 0 (length X)))) in
  map (fun i => (n_sqrt (s i), i)) used ++ repeat (n_div one zero, length X) (k - length used).
Lemma number_B2R (x : F64) : number x -> f_val x = XFin (B2R x).
Proof. intros [r H]. destruct x as [b|b| |b m e h]; cbn in *; try destruct b; try discriminate H; reflexivity. Qed.
Lemma sort_by_leb {O O' : numops} (d : nat -> O) (d' : nat -> O') l : (forall i j, In i l -> In j l -> n_leb (d i) (d j) = n_leb (d' i) (d' j)) -> sort_by d l = sort_by d' l /\ incl (sort_by d l) l.
Proof.
  induction l as [|i l IH]; intros H; [split; [reflexivity|intros x []]|]. cbn [sort_by fold_right].
  destruct IH as [E I]; [intros; apply H; right; auto|]. unfold sort_by in E, I. rewrite <- E. set (m := fold_right (insert_by d) [] l) in *. clearbody m. clear E.
  assert (G : insert_by d i m = insert_by d' i m /\ incl (insert_by d i m) (i :: m)).
  { assert (Hm : forall j, In j m -> n_leb (d i) (d j) = n_leb (d' i) (d' j)) by (intros j J; apply H; [left; auto|right; apply I; auto]). clear I H.
    induction m as [|j m IHm]; cbn [insert_by]; [split; [reflexivity|intros x X; exact X]|]. rewrite <- Hm by (left; auto).
    destruct (n_leb (d i) (d j)); [split; [reflexivity|intros x X; exact X]|]. destruct IHm as [A B]; [intros; apply Hm; right; auto|]. rewrite A. split; [reflexivity|].
    rewrite <- A. intros x [<-|X]; [right; left; auto|]. apply B in X. destruct X as [X|X]; [left; auto|right; right; auto]. }
  destruct G as [A B]. split; [exact A|]. intros x X. apply B in X. destruct X as [X|X]; [left; auto|right; apply I; auto].
Qed.
Lemma square_search_ok : search_ok square_search.
Proof.
  intros X q k ub HN Hu. unfold square_search. set (s := fun i => sqdist q (get dflt X i)). set (d := fun i => B2R (s i)).
  set (inside := fun i => match ub with None => true | Some u => n_ltb (s i) (n_mul u u) end).
  assert (V : forall i, i < length X -> f_val (s i) = XFin (d i)) by (intros i Hi; apply number_B2R, HN, get_In; auto).
  set (fl := filter inside (seq 0 (length X))).
  assert (IF : forall i, In i fl <-> i < length X /\ in_range d (option_map (fun u : F64 => B2R (n_mul u u)) ub) i).
  { intros i. unfold fl. rewrite filter_In, in_seq. unfold in_range, inside. destruct ub as [u|]; cbn [option_map]; [|intuition lia].
    split.
    - intros [A B]. split; [lia|]. rewrite (val_ltb _ F64sem) in B. change (val F64sem (s i)) with (f_val (s i)) in B. rewrite (V i) in B by lia.
      change (val F64sem (n_mul u u)) with (f_val (n_mul u u)) in B. rewrite (number_B2R _ (Hu u eq_refl)) in B. unfold xltb in B. destruct (Rlt_bool_spec (d i) (B2R (n_mul u u))); [auto|discriminate].
    - intros [A B]. split; [lia|]. rewrite (val_ltb _ F64sem). change (val F64sem (s i)) with (f_val (s i)). rewrite (V i) by lia.
      change (val F64sem (n_mul u u)) with (f_val (n_mul u u)). rewrite (number_B2R _ (Hu u eq_refl)). unfold xltb. apply Rlt_bool_true. exact B. }
  assert (ES : sort_by s fl = sort_by (fun i => XFin (d i) : XR) fl).
  { apply sort_by_leb. intros i j Hi Hj. apply IF in Hi, Hj. rewrite (val_leb _ F64sem). change (val F64sem (s i)) with (f_val (s i)). change (val F64sem (s j)) with (f_val (s j)).
    rewrite !V by tauto. reflexivity. }
  exists (firstn k (sort_by s fl)), (n_div one zero). split; [|reflexivity]. rewrite ES. apply nearest_of_sorted.
  - apply sort_by_sorted.
  - eapply Permutation_NoDup; [apply Permutation_sym, (sort_by_perm d)|]. apply NoDup_filter, seq_NoDup.
  - intros i. split; intros A.
    + apply IF. exact (Permutation_in _ (sort_by_perm d fl) A).
    + apply (Permutation_in _ (Permutation_sym (sort_by_perm d fl))), IF. exact A.
Qed.
