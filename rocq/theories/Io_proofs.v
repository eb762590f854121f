(** * Proofs about reading cmlh5 files *)
From Coq Require Import List ZArith Bool String Lia Arith.
From Verif Require Import Base Num NumList Libm Haversine_model NearbyWetdry_model TorchInfer_proofs Validator_model Validator_spec Validator_proofs2 Io_model Io_spec.
Import ListNotations.
Local Open Scope nat_scope.
Local Notation length := List.length.

Lemma z_list_eqb_eq a b : z_list_eqb a b = true <-> a = b.
Proof.
  unfold z_list_eqb. revert b. induction a as [|x a IH]; intros [|y b]; cbn; try (split; [discriminate|congruence]); [intuition|].
  rewrite <- (Z.eqb_eq x y) || idtac. specialize (IH b). destruct (Nat.eqb_spec (length a) (length b)) as [E|E]; cbn in *.
  - rewrite andb_true_iff, Z.eqb_eq, IH. split; [intros [-> ->]; auto|intros H; injection H; auto].
  - split; [discriminate|]. intros H. injection H as _ H. congruence.
Qed.
Lemma has_dup_spec l : has_dup l = false <-> NoDup l.
Proof.
  induction l as [|x l IH]; cbn; [split; auto; constructor|]. rewrite orb_false_iff, IH, NoDup_cons_iff. split; intros [H1 H2]; split; auto.
  - intros H. apply not_true_iff_false in H1. apply H1. apply existsb_exists. exists x. split; auto. apply Z.eqb_refl.
  - apply not_true_is_false. intros H. apply existsb_exists in H as (y & Hy & E). apply Z.eqb_eq in E. subst. auto.
Qed.

Section P.
Context {O : numops} (S : numsem O) (L : libm O) (as_ns : O -> Z).

Lemma same_refl (x : O) : n_same x x = true.
Proof.
  unfold n_same. destruct (n_isnan x) eqn:N; [rewrite andb_true_r, orb_true_r; auto|].
  rewrite orb_false_r || idtac. assert (E : n_eqb x x = true) by (rewrite (val_eqb _ S); apply xeqb_true; rewrite <- (val_isnan _ S); auto). rewrite E. reflexivity.
Qed.
Lemma same_alike (x y : O) : n_same x y = true -> alike x y.
Proof. unfold n_same, alike. rewrite orb_true_iff, andb_true_iff. auto. Qed.
Lemma merge_const {A B} (same : A -> A -> bool) (f : B -> A) x l : (forall a, same a a = true) -> l <> [] -> (forall b, In b l -> f b = x) ->
  merge_coord same (map f l) = CScalar x.
Proof.
  intros R N H. destruct l as [|b l]; [congruence|]. cbn [map merge_coord]. rewrite (H b) by (left; auto).
  assert (E : forallb (same x) (map f l) = true). { apply forallb_forall. intros a Ha. apply in_map_iff in Ha as (c & <- & Hc). rewrite (H c) by (right; auto). apply R. }
  rewrite E. reflexivity.
Qed.
Lemma merge_at {A} (same : A -> A -> bool) d (l : list A) i : (forall a, same a a = true) -> i < length l -> same (coord_at d (merge_coord same l) i) (get d l i) = true.
Proof.
  intros R H. destruct l as [|x l]; [cbn in H; lia|]. cbn [merge_coord]. destruct (forallb (same x) l) eqn:E; cbn [coord_at]; auto.
  destruct i as [|i]; [apply R|]. rewrite forallb_forall in E. apply E. change (In (get d l i) l). apply get_In. cbn in H. lia.
Qed.
Lemma lookup_In times (vals : list O) t : length vals = length times -> In t times ->
  exists q, q < length times /\ get 0%Z times q = t /\ lookup times vals t = nget vals q.
Proof.
  revert vals. induction times as [|k times IH]; intros [|v vals] E H; cbn in E; try lia; [destruct H|]. cbn [lookup]. destruct (Z.eqb_spec k t) as [->|N].
  - exists 0. cbn. split; [lia|auto].
  - destruct H as [H|H]; [congruence|]. destruct (IH vals ltac:(lia) H) as (q & Q1 & Q2 & Q3). exists (Datatypes.S q). cbn. split; [lia|auto].
Qed.
Lemma lookup_same times (v1 v2 : list O) t : length v1 = length times -> length v2 = length times -> In t times ->
  exists q, q < length times /\ get 0%Z times q = t /\ lookup times v1 t = nget v1 q /\ lookup times v2 t = nget v2 q.
Proof.
  revert v1 v2. induction times as [|k times IH]; intros [|a v1] [|b v2] E1 E2 H; cbn in E1, E2; try lia; [destruct H|]. cbn [lookup]. destruct (Z.eqb_spec k t) as [->|N].
  - exists 0. cbn. split; [lia|auto].
  - destruct H as [H|H]; [congruence|]. destruct (IH v1 v2 ltac:(lia) ltac:(lia) H) as (q & Q1 & Q2 & Q3 & Q4). exists (Datatypes.S q). cbn. split; [lia|auto].
Qed.
Lemma lookup_out times (vals : list O) t : ~ In t times -> lookup times vals t = n_nan.
Proof.
  revert vals. induction times as [|k times IH]; intros [|v vals] H; cbn; auto. destruct (Z.eqb_spec k t) as [->|N]; [exfalso; apply H; left; auto|]. apply IH. intros I. apply H. right; auto.
Qed.

(** the dataset built for one channel *)
Definition built (k : link_group O) (c : string * channel_group O) : ch_dataset O :=
  {| s_tsl := g_tx (snd c); s_rsl := g_rx (snd c); s_time := axis as_ns (snd c); s_channel_id := fst c; s_cml_id := g_cml_id k;
     s_lat_a := g_lat_a k; s_lat_b := g_lat_b k; s_lon_a := g_lon_a k; s_lon_b := g_lon_b k;
     s_frequency := n_div (g_frequency (snd c)) (n_ofZ 1000000000); s_polarization := g_polarization (snd c);
     s_length := haversine L (g_lon_a k) (g_lat_a k) (g_lon_b k) (g_lat_b k) |}.
Lemma channel_built k c : channel_ok (snd c) -> channel_dataset L as_ns k (fst c) (snd c) = Ok (built k c).
Proof. intros [E1 E2]. unfold channel_dataset. rewrite E1, E2, !Nat.eqb_refl. reflexivity. Qed.

Lemma link_read k : link_ok as_ns k ->
  exists ds, concat_channels (map (built k) (g_channels k)) = Ok ds /\ holds L as_ns k ds /\
   ((exists a, Forall (fun c => axis as_ns (snd c) = a) (g_channels k) /\ d_time ds = a) \/
    (~ (exists a, Forall (fun c => axis as_ns (snd c) = a) (g_channels k)) /\ ascending (d_time ds))).
Proof.
  intros (NE & OK & AX). set (cs := g_channels k) in *. destruct cs as [|c0 cs'] eqn:Ecs; [congruence|]. rewrite <- Ecs in *. clear NE.
  assert (NE : cs <> []) by (rewrite Ecs; discriminate). assert (NE' : map (built k) cs <> []) by (rewrite Ecs; discriminate).
  set (l := map (built k) cs). assert (El : l = built k c0 :: map (built k) cs') by (unfold l; rewrite Ecs; reflexivity).
  unfold concat_channels. rewrite El. cbn [s_time built]. rewrite <- El. fold (built k c0).
  set (equal := forallb (fun s : ch_dataset O => z_list_eqb (axis as_ns (snd c0)) (s_time s)) (map (built k) cs')).
  assert (EQ : equal = true <-> Forall (fun c => axis as_ns (snd c) = axis as_ns (snd c0)) cs).
  { unfold equal. rewrite forallb_forall, Ecs, Forall_forall. split.
    - intros H c [<-|Hc]; auto. specialize (H (built k c) (in_map _ _ _ Hc)). apply z_list_eqb_eq in H. cbn in H. auto.
    - intros H s Hs. apply in_map_iff in Hs as (c & <- & Hc). apply z_list_eqb_eq. cbn. symmetry. apply H. right; auto. }
  assert (ND : negb equal && existsb (fun s => has_dup (s_time s)) l = false).
  { destruct equal eqn:E; auto. cbn. apply not_true_is_false. intros H. apply existsb_exists in H as (s & Hs & H). unfold l in Hs. apply in_map_iff in Hs as (c & <- & Hc). cbn in H.
    destruct AX as [AX|[a AX]].
    - rewrite Forall_forall in AX. specialize (AX c Hc). apply has_dup_spec in AX. congruence.
    - assert (X : false = true); [|discriminate]. apply EQ. rewrite Forall_forall in *. intros c' Hc'. rewrite (AX c' Hc'). symmetry. apply AX. rewrite Ecs. left; auto. }
  rewrite ND. eexists; split; [reflexivity|]. set (time := if equal then axis as_ns (snd c0) else sort_unique (List.concat (map s_time l))).
  split.
  - unfold holds. cbn [d_channel_id d_time d_tsl d_rsl d_cml_id d_lat_a d_lat_b d_lon_a d_lon_b d_frequency d_polarization d_length]. fold cs. split; [unfold l; rewrite map_map; reflexivity|]. split.
    { intros t. unfold time. destruct equal eqn:E.
      - assert (E' := proj1 EQ eq_refl). rewrite Forall_forall in E'. split.
        + intros Ht. exists c0. split; auto. rewrite Ecs. left; auto.
        + intros (c & Hc & Ht). rewrite (E' c Hc) in Ht. auto.
      - destruct (sort_unique_spec (List.concat (map s_time l))) as [_ I]. rewrite I, in_concat. split.
        + intros (a & Ha & Ht). apply in_map_iff in Ha as (s & <- & Hs). unfold l in Hs. apply in_map_iff in Hs as (c & <- & Hc). exists c. auto.
        + intros (c & Hc & Ht). exists (axis as_ns (snd c)). split; auto. apply in_map_iff. exists (built k c). split; auto. apply in_map. auto. }
    intros i d Hi. set (c := get d cs i). assert (Hc : In c cs) by (apply get_In; auto). cbv zeta. destruct (OK c Hc) as [L1 L2].
    assert (La : length (axis as_ns (snd c)) = length (g_time (snd c))) by (unfold axis; apply map_length).
    assert (Gl : get (built k d) l i = built k c) by (unfold l; rewrite (get_map _ d) by auto; reflexivity).
    assert (Ll : length l = length cs) by (unfold l; apply map_length).
    rewrite !(get_map _ (built k d)) by lia. rewrite Gl. cbn [s_tsl s_rsl s_time built].
    assert (Loc : forall (f : ch_dataset O -> O) x, (forall c, f (built k c) = x) -> merge_coord n_same (map f l) = CScalar x).
    { intros f x H. apply merge_const; auto using same_refl. intros s Hs. unfold l in Hs. apply in_map_iff in Hs as (c' & <- & _). apply H. }
    assert (Tq : forall p, p < length time ->
       (In (get 0%Z time p) (axis as_ns (snd c)) -> exists q, q < length (g_time (snd c)) /\ get 0%Z (axis as_ns (snd c)) q = get 0%Z time p /\
          nget (if equal then g_tx (snd c) else map (lookup (axis as_ns (snd c)) (g_tx (snd c))) time) p = nget (g_tx (snd c)) q /\
          nget (if equal then g_rx (snd c) else map (lookup (axis as_ns (snd c)) (g_rx (snd c))) time) p = nget (g_rx (snd c)) q) /\
       (~ In (get 0%Z time p) (axis as_ns (snd c)) ->
          nget (if equal then g_tx (snd c) else map (lookup (axis as_ns (snd c)) (g_tx (snd c))) time) p = n_nan /\
          nget (if equal then g_rx (snd c) else map (lookup (axis as_ns (snd c)) (g_rx (snd c))) time) p = n_nan)).
    { intros p Hp. unfold time in *. destruct equal eqn:E.
      - assert (E' := proj1 EQ eq_refl). rewrite Forall_forall in E'. rewrite <- (E' c Hc) in *. split.
        + intros _. exists p. split; [lia|auto].
        + intros N. exfalso. apply N. apply get_In. lia.
      - unfold nget. rewrite !(get_map _ 0%Z) by auto. split.
        + intros I. destruct (lookup_same (axis as_ns (snd c)) (g_tx (snd c)) (g_rx (snd c)) _ ltac:(lia) ltac:(lia) I) as (q & Q1 & Q2 & Q3 & Q4). exists q. split; [lia|]. split; auto.
        + intros N. rewrite !lookup_out by auto. auto. }
    split; [|split; [|split; [exact Tq|]]].
    { unfold time. destruct equal eqn:E; [|rewrite map_length; auto]. assert (E' := proj1 EQ eq_refl). rewrite Forall_forall in E'. rewrite <- (E' c Hc). lia. }
    { unfold time. destruct equal eqn:E; [|rewrite map_length; auto]. assert (E' := proj1 EQ eq_refl). rewrite Forall_forall in E'. rewrite <- (E' c Hc). lia. }
    split; [|split].
    { apply same_alike. pose proof (merge_at n_same n_nan (map s_frequency l) i same_refl) as M. rewrite map_length in M. specialize (M ltac:(lia)). rewrite (get_map _ (built k d)), Gl in M by lia. exact M. }
    { pose proof (merge_at String.eqb EmptyString (map s_polarization l) i String.eqb_refl) as M. rewrite map_length in M. specialize (M ltac:(lia)). rewrite (get_map _ (built k d)), Gl in M by lia. apply String.eqb_eq in M. exact M. }
    split.
    { apply merge_const; auto using String.eqb_refl. intros s Hs. unfold l in Hs. apply in_map_iff in Hs as (c' & <- & _). reflexivity. }
    repeat split; apply Loc; reflexivity.
  - cbn [d_time]. unfold time. destruct equal eqn:E.
    + left. exists (axis as_ns (snd c0)). split; auto. apply EQ. reflexivity.
    + right. split.
      * intros [a Ha]. assert (X : false = true); [|discriminate]. apply EQ. rewrite Forall_forall in *. intros c Hc. rewrite (Ha c Hc). symmetry. apply Ha. rewrite Ecs. left; auto.
      * apply sort_unique_spec.
Qed.

Theorem read_correct (fh : list (string * link_group O)) : fh <> [] -> (forall e, In e fh -> link_ok as_ns (snd e)) ->
  exists dss, read_cmlh5_file_to_xarray L as_ns fh = Ok dss /\
  Forall2 (fun e ds => holds L as_ns (snd e) ds /\
    ((exists a, Forall (fun c => axis as_ns (snd c) = a) (g_channels (snd e)) /\ d_time ds = a) \/
     (~ (exists a, Forall (fun c => axis as_ns (snd c) = a) (g_channels (snd e))) /\ ascending (d_time ds)))) fh dss.
Proof.
  intros NE OK. unfold read_cmlh5_file_to_xarray. destruct fh as [|e0 fh']; [congruence|]. set (fh := e0 :: fh') in *. clearbody fh. clear NE e0 fh'.
  induction fh as [|e fh IH]; [exists []; split; [reflexivity|constructor]|].
  destruct (IH (fun x Hx => OK x (or_intror Hx))) as (dss & E & F). destruct (link_read (snd e) (OK e (or_introl eq_refl))) as (ds & Ed & H).
  exists (ds :: dss). split; [|constructor; auto]. cbn [mapM].
  rewrite (mapM_map _ (built (snd e))) by (intros c Hc; apply channel_built; destruct (OK e (or_introl eq_refl)) as (_ & OK' & _); auto).
  cbn [bind]. rewrite Ed. cbn [bind]. rewrite E. reflexivity.
Qed.
Theorem read_empty : read_cmlh5_file_to_xarray L as_ns [] = Err IndexError.
Proof. reflexivity. Qed.
Lemma forall_or {A} (P : A -> Prop) (l : list A) : (forall x, In x l -> P x \/ ~ P x) -> (forall x, In x l -> P x) \/ exists x, In x l /\ ~ P x.
Proof.
  induction l as [|a l IH]; intros D; [left; intros x []|]. destruct (D a (or_introl eq_refl)) as [Pa|Pa]; [|right; exists a; split; [left|]; auto].
  destruct IH as [H|(x & Hx & H)]; [intros x Hx; apply D; right; auto| |right; exists x; split; [right|]; auto].
  left. intros x [<-|Hx]; auto.
Qed.
Lemma channel_ok_dec (g : channel_group O) : channel_ok g \/ ~ channel_ok g.
Proof. unfold channel_ok. destruct (Nat.eq_dec (length (g_tx g)) (length (g_time g))), (Nat.eq_dec (length (g_rx g)) (length (g_time g))); tauto. Qed.
Theorem link_ok_or_bad (k : link_group O) : link_ok as_ns k \/ bad_link as_ns k.
Proof.
  unfold link_ok, bad_link. destruct (g_channels k) as [|c0 cs] eqn:E; [right; left; auto|]. rewrite <- E.
  destruct (forall_or (fun c => channel_ok (snd c)) (g_channels k) (fun c _ => channel_ok_dec (snd c))) as [OK|B]; [|right; right; left; auto].
  destruct (forall_or (fun c => NoDup (axis as_ns (snd c))) (g_channels k)) as [N|N].
  { intros c _. destruct (has_dup (axis as_ns (snd c))) eqn:D; [right|left; apply has_dup_spec; auto]. rewrite <- has_dup_spec, D. discriminate. }
  { left. split; [rewrite E; discriminate|]. split; auto. left. apply Forall_forall. auto. }
  destruct (forall_or (fun c => axis as_ns (snd c0) = axis as_ns (snd c)) (g_channels k)) as [Q|(c & Hc & Q)].
  { intros c _. rewrite <- z_list_eqb_eq. destruct (z_list_eqb _ _); [left; auto|right; discriminate]. }
  { left. split; [rewrite E; discriminate|]. split; auto. right. exists (axis as_ns (snd c0)). apply Forall_forall. intros c Hc. symmetry. auto. }
  right; right; right. split; auto. exists c0, c. split; [rewrite E; left|]; auto.
Qed.
(** the first unreadable link decides *)
Theorem read_bad_link (good rest : list (string * link_group O)) (bad : string * link_group O) :
  (forall e, In e good -> link_ok as_ns (snd e)) -> bad_link as_ns (snd bad) ->
  read_cmlh5_file_to_xarray L as_ns (good ++ bad :: rest) = Err ValueError.
Proof.
  intros OK B. assert (E : (do l <- mapM (fun c => channel_dataset L as_ns (snd bad) (fst c) (snd c)) (g_channels (snd bad)); concat_channels l) = Err ValueError).
  { destruct B as [B|B]; [rewrite B; reflexivity|].
    destruct (forall_or (fun c => channel_ok (snd c)) (g_channels (snd bad)) (fun c _ => channel_ok_dec (snd c))) as [G|(c & Hc & G)].
    2: { rewrite (mapM_err _ ValueError); auto.
      - intros x _. unfold channel_dataset. destruct (_ && _); eauto.
      - exists c. split; auto. unfold channel_dataset. destruct ((length (g_tx (snd c)) =? length (g_time (snd c))) && (length (g_rx (snd c)) =? length (g_time (snd c)))) eqn:E; auto.
        exfalso. apply G. apply andb_true_iff in E as [E1 E2]. apply Nat.eqb_eq in E1, E2. split; auto. }
    destruct B as [(c & Hc & B)|((c & c' & Hc & Hc' & D) & (e & He & N))]; [exfalso; auto|].
    rewrite (mapM_map _ (built (snd bad))) by (intros x Hx; apply channel_built; auto). cbn [bind]. unfold concat_channels.
    destruct (map (built (snd bad)) (g_channels (snd bad))) as [|f r] eqn:M; [reflexivity|]. rewrite <- M.
    assert (I : forall x, In x (g_channels (snd bad)) -> In (built (snd bad) x) (f :: r)) by (intros x Hx; rewrite <- M; apply in_map; auto).
    assert (Q : forallb (fun s => z_list_eqb (s_time f) (s_time s)) r = false).
    { apply not_true_is_false. intros Q. rewrite forallb_forall in Q. assert (X : forall x, In x (g_channels (snd bad)) -> s_time f = axis as_ns (snd x)).
      { intros x Hx. destruct (I x Hx) as [Hf|Hr]; [rewrite Hf; reflexivity|]. apply Q, z_list_eqb_eq in Hr. exact Hr. }
      apply D. rewrite <- (X c Hc), <- (X c' Hc'). reflexivity. }
    rewrite Q. assert (X : existsb (fun s => has_dup (s_time s)) (map (built (snd bad)) (g_channels (snd bad))) = true).
    { apply existsb_exists. exists (built (snd bad) e). split; [apply in_map; auto|]. cbn. destruct (has_dup (axis as_ns (snd e))) eqn:Dp; auto. apply has_dup_spec in Dp. contradiction. }
    rewrite X. reflexivity. }
  unfold read_cmlh5_file_to_xarray. assert (X : exists a r, good ++ bad :: rest = a :: r) by (destruct good; cbn; eauto). destruct X as (a & r & X). rewrite X, <- X. clear X a r.
  induction good as [|e good IH]; cbn [app mapM]; [rewrite E; reflexivity|].
  destruct (link_read (snd e) (OK e (or_introl eq_refl))) as (ds & Ed & _).
  rewrite (mapM_map _ (built (snd e))) by (intros c Hc; apply channel_built; destruct (OK e (or_introl eq_refl)) as (_ & OK' & _); auto).
  cbn [bind]. rewrite Ed. cbn [bind]. rewrite IH by (intros x Hx; apply OK; right; auto). reflexivity.
Qed.
End P.
