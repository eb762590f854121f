(** * Slices of stacks *)
From Coq Require Import List ZArith Bool String Lia.
From Verif Require Import Base Wrapper_model Wrapper_spec Wrapper_proofs.
Import ListNotations.
Local Open Scope nat_scope.
Local Notation length := List.length.

Section W.
Context {A : Type} (dA : A).
Notation val := (val A). Notation param := (param A).
Notation dd := (EmptyString, 0).

Lemma find_name (acc : list (string * nat)) (dn p : string * nat) : find (fun p => (fst p =? fst dn)%string) acc = Some p -> In p acc /\ fst p = fst dn.
Proof. intros H. apply find_some in H. destruct H as [H E]. apply String.eqb_eq in E. auto. Qed.
Lemma find_name_none (acc : list (string * nat)) (dn : string * nat) : find (fun p => (fst p =? fst dn)%string) acc = None -> ~ In (fst dn) (map fst acc).
Proof.
  intros H K. apply in_map_iff in K. destruct K as (p & E & Hin). apply (find_none _ _ H) in Hin. cbn in Hin. rewrite E, String.eqb_refl in Hin. discriminate.
Qed.
Lemma NoDup_snoc {B} (l : list B) x : NoDup l -> ~ In x l -> NoDup (l ++ [x]).
Proof. intros H N. apply NoDup_rev in H. rewrite <- (rev_involutive (l ++ [x])), rev_app_distr. apply NoDup_rev. cbn. constructor; auto. rewrite <- in_rev. auto. Qed.

Lemma add_dims_ok l acc : NoDup (map fst acc) -> (forall d n n', In (d, n) (acc ++ l) -> In (d, n') (acc ++ l) -> n = n') ->
  exists dims, add_dims acc l = Ok dims /\ NoDup (map fst dims) /\ forall dn, In dn dims <-> In dn (acc ++ l).
Proof.
  revert acc. induction l as [|dn l IH]; intros acc ND C.
  - exists acc. rewrite app_nil_r. cbn. split; auto. split; auto. tauto.
  - cbn [add_dims]. unfold add_dim. destruct (find _ acc) as [p|] eqn:F.
    + apply find_name in F. destruct F as [Hin E]. destruct p as [d n], dn as [d' n']; cbn in *. subst.
      assert (n = n') by (apply (C d'); [apply in_or_app; auto|apply in_or_app; right; left; auto]). subst. rewrite Nat.eqb_refl. cbn [bind].
      destruct (IH acc ND) as (dims & E & ND' & HI).
      { intros d n n'' H1 H2. apply (C d); apply in_app_or in H1; apply in_app_or in H2; apply in_or_app; cbn; tauto. }
      exists dims. split; auto. split; auto. intros dn. rewrite HI, !in_app_iff. cbn. split; [tauto|]. intros [|[<-|]]; auto.
    + apply find_name_none in F. cbn [bind]. destruct (IH (acc ++ [dn])) as (dims & E & ND' & HI).
      * rewrite map_app. apply NoDup_snoc; auto.
      * rewrite <- app_assoc. exact C.
      * exists dims. split; auto. split; auto. intros x. rewrite HI, <- app_assoc. reflexivity.
Qed.

Lemma unify_dims_ok (vs : list val) : consistent vs -> exists dims, unify_dims vs = Ok dims /\ joint vs dims.
Proof.
  intros C. destruct (add_dims_ok (flat_map other_dims vs) []) as (dims & E & ND & H).
  - constructor.
  - cbn. intros d n n' H1 H2. apply in_flat_map in H1, H2. destruct H1 as (v & Hv & H1), H2 as (v' & Hv' & H2). exact (C v v' d n n' Hv Hv' H1 H2).
  - exists dims. split; auto. split; auto. intros d n. rewrite H. cbn. rewrite in_flat_map. reflexivity.
Qed.

Lemma unify_time_ok (vs : list val) n : existsb has_time vs = true -> (forall ds m data, In (DA ds (Some m) data) vs -> m = n) -> unify_time vs = Ok n.
Proof.
  intros H C. unfold unify_time.
  assert (T : forall m, In m (time_lengths vs) -> m = n).
  { intros m Hm. apply in_flat_map in Hm. destruct Hm as (v & Hv & Hm). destruct v as [| | |ds [k|] data]; cbn in Hm; try tauto. destruct Hm as [<-|[]]. eauto. }
  destruct (time_lengths vs) as [|m l] eqn:E.
  - exfalso. apply existsb_exists in H. destruct H as (v & Hv & Ht). destruct v as [| | |ds [k|] data]; try discriminate.
    assert (In k (time_lengths vs)) by (apply in_flat_map; eexists; split; [eassumption|left; auto]). rewrite E in *. contradiction.
  - rewrite (T m) by (left; auto). replace (forallb (Nat.eqb n) l) with true; auto. symmetry. apply forallb_forall. intros x Hx. rewrite (T x) by (right; auto). apply Nat.eqb_refl.
Qed.

Lemma dim_index_get dims idx j : NoDup (map fst dims) -> length idx = length dims -> j < length dims ->
  dim_index dims idx (fst (get dd dims j)) = get 0 idx j.
Proof.
  revert idx j. induction dims as [|[d n] dims IH]; intros [|i idx] j ND L Hj; cbn in L, Hj; try lia. inversion ND as [|? ? Hn ND']; subst.
  destruct j as [|j]; cbn.
  - rewrite String.eqb_refl. reflexivity.
  - destruct (String.eqb_spec d (fst (nth j dims dd))) as [E|].
    + exfalso. apply Hn. cbn [fst]. rewrite E. apply in_map. apply nth_In. lia.
    + apply IH; auto; lia.
Qed.

Lemma restricted_unique dims idx ds ix : NoDup (map fst dims) -> length idx = length dims -> restricted dims idx ds ix ->
  ix = map (fun d => dim_index dims idx (fst d)) ds.
Proof.
  intros ND L H. unfold restricted in H. induction H as [|d i ds ix (j & Hj & <- & <-) H IH]; auto. cbn [map]. rewrite dim_index_get by auto. f_equal; auto.
Qed.
Lemma restricted_exists dims idx ds : NoDup (map fst dims) -> length idx = length dims -> incl ds dims -> restricted dims idx ds (map (fun d => dim_index dims idx (fst d)) ds).
Proof.
  intros ND L I. unfold restricted. induction ds as [|d ds IH]; cbn [map]; constructor.
  - destruct (In_get dd dims d) as (j & Hj & E); [apply I; left; auto|]. exists j. split; auto. split; auto. rewrite <- E. symmetry. apply dim_index_get; auto.
  - apply IH. intros x Hx. apply I. right. auto.
Qed.
Lemma restricted_valid dims idx ds ix : valid_index (map snd dims) idx -> restricted dims idx ds ix -> valid_index (map snd ds) ix.
Proof.
  intros V H. unfold valid_index in *. induction H as [|d i ds ix (j & Hj & <- & <-) H IH]; cbn [map]; constructor; auto.
  clear IH H. revert j Hj. remember (map snd dims) as s eqn:E. revert dims E. induction V as [|i n idx s Hlt V IH]; intros [|[d m] dims] E j Hj; try discriminate; cbn in Hj; [lia|].
  cbn in E. injection E as -> ->. destruct j as [|j]; cbn; auto. apply (IH dims eq_refl). lia.
Qed.

Lemma valid_length s ix : valid_index s ix -> length ix = length s.
Proof. intros H. unfold valid_index in H. induction H; cbn; auto. Qed.
Lemma slice_series dims idx ds n data : NoDup (map fst dims) -> valid_index (map snd dims) idx -> incl ds dims -> length data = fold_right Nat.mul 1 (map snd ds) * n ->
  sliced dA dims idx (DA ds (Some n) data) (slice_arg dA dims idx (DA ds (Some n) data)).
Proof.
  intros ND V I L. assert (Li : length idx = length dims) by (apply valid_length in V; rewrite map_length in V; auto).
  cbn [slice_arg]. pose proof (restricted_exists dims idx ds ND Li I) as HR. set (ix := map (fun d => dim_index dims idx (fst d)) ds) in *.
  pose proof (position_lt _ _ (restricted_valid _ _ _ _ V HR)) as PL. rewrite prod_fold in PL. rewrite position_rm.
  apply sl_series with (ix := ix); auto.
  - rewrite firstn_length, skipn_length. nia.
  - intros t Ht. rewrite get_firstn by auto. apply get_skipn.
Qed.
Lemma slice_unique dims idx v w : NoDup (map fst dims) -> valid_index (map snd dims) idx -> incl (dims_of v) dims -> well_formed v -> sliced dA dims idx v w -> w = slice_arg dA dims idx v.
Proof.
  intros ND V I W H. assert (Li : length idx = length dims) by (apply valid_length in V; rewrite map_length in V; auto).
  inversion H as [| |ds n data ix l HR Ll Hl|ds data ix HR]; subst; auto; cbn [slice_arg].
  - pose proof (slice_series dims idx ds (length l) data ND V I W) as HS. inversion HS as [| |ds' n' data' ix' l' HR' Ll' Hl'|]; subst.
    f_equal. apply (get_ext dA); auto. intros t Ht.
    rewrite Hl, Hl' by auto. rewrite (restricted_unique _ _ _ _ ND Li HR), (restricted_unique _ _ _ _ ND Li HR'). reflexivity.
  - rewrite <- (restricted_unique dims idx ds ix ND Li HR). reflexivity.
Qed.
Lemma slice_sliced dims idx v : NoDup (map fst dims) -> valid_index (map snd dims) idx -> incl (dims_of v) dims -> well_formed v -> sliced dA dims idx v (slice_arg dA dims idx v).
Proof.
  intros ND V I W. assert (Li : length idx = length dims) by (apply valid_length in V; rewrite map_length in V; auto).
  destruct v as [|a|l|ds [n|] data]; try constructor; [destruct W|apply slice_series; auto|].
  apply restricted_exists; auto.
Qed.
Lemma slices_sliced dims idx vs : joint vs dims -> valid_index (map snd dims) idx -> Forall well_formed vs -> Forall2 (sliced dA dims idx) vs (map (slice_arg dA dims idx) vs).
Proof.
  intros [ND J] V W.
  assert (HI : forall v, In v vs -> incl (dims_of v) dims) by (intros v Hv [d n] Hd; apply J; eauto). clear J.
  induction W as [|v vs Wv W IH]; constructor; [apply slice_sliced; auto; apply HI; left; auto|]. apply IH. intros; apply HI; right; auto.
Qed.
Lemma slices_unique dims idx vs xs : joint vs dims -> valid_index (map snd dims) idx -> Forall well_formed vs -> Forall2 (sliced dA dims idx) vs xs -> xs = map (slice_arg dA dims idx) vs.
Proof.
  intros [ND J] V W H.
  assert (HI : forall v, In v vs -> incl (dims_of v) dims) by (intros v Hv [d n] Hd; apply J; eauto). clear J.
  induction H as [|v x vs xs Hx H IH]; auto. inversion W; subst. cbn [map]. rewrite (slice_unique dims idx v x); auto; [f_equal; apply IH; auto; intros; apply HI; right; auto|apply HI; left; auto].
Qed.

Lemma no_numpy (vs : list val) : Forall well_formed vs -> existsb is_numpy vs = false.
Proof. intros W. induction W as [|v vs Wv W IH]; auto. cbn. rewrite IH. destruct v; auto. destruct Wv. Qed.

(** the main theorem: each series is treated as by a loop *)
Lemma wrapper_pointwise f params args kw vs n : NoDup (map fst kw) -> binds params args kw vs ->
  existsb has_time vs = true -> Forall well_formed vs -> consistent vs ->
  (forall ds m data, In (DA ds (Some m) data) vs -> m = n) -> (forall v d k, In v vs -> In (d, k) (dims_of v) -> 0 < k) ->
  (forall dims idx xs, joint vs dims -> valid_index (map snd dims) idx -> Forall2 (sliced dA dims idx) vs xs -> exists l, f xs = Ok (RSeries l) /\ length l = n) ->
  exists dims out, inner dA f params args kw = Ok (RDA dims n out) /\ joint vs dims /\ length out = fold_right Nat.mul 1 (map snd dims) * n /\
  forall idx xs, valid_index (map snd dims) idx -> Forall2 (sliced dA dims idx) vs xs ->
    exists l, f xs = Ok (RSeries l) /\ length l = n /\ forall t, t < n -> get dA out (position (map snd dims) idx * n + t) = get dA l t.
Proof.
  intros NK HB HT HW HC HN HP HF.
  destruct (unify_dims_ok vs HC) as (dims & ED & J).
  destruct (apply_ufunc_ok dA f vs n dims) as (out & E & L & H); auto.
  - apply no_numpy; auto.
  - apply unify_time_ok; auto.
  - apply Forall_forall. intros [d k] Hd. destruct J as [_ J]. apply J in Hd. destruct Hd as (v & Hv & Hd). cbn. eauto.
  - intros idx V. apply (HF dims idx); auto. apply slices_sliced; auto.
  - exists dims, out. split.
    { rewrite inner_time; rewrite (merge_is_binding _ _ _ vs NK HB); auto. }
    split; auto. split; auto. intros idx xs V HS. rewrite (slices_unique dims idx vs xs J V HW HS), H by auto.
    eexists. split; [reflexivity|]. pose proof (position_lt _ _ V) as PL. rewrite prod_fold in PL. split.
    + rewrite firstn_length, skipn_length. nia.
    + intros t Ht. rewrite get_firstn by auto. rewrite get_skipn. reflexivity.
Qed.

(** no series can be missed: an error in any one is an error of the call *)
Lemma wrapper_error f params args kw vs dims n out : NoDup (map fst kw) -> binds params args kw vs ->
  existsb has_time vs = true -> Forall well_formed vs -> consistent vs ->
  inner dA f params args kw = Ok (RDA dims n out) ->
  joint vs dims /\ forall idx xs, valid_index (map snd dims) idx -> Forall2 (sliced dA dims idx) vs xs -> exists r, f xs = Ok r.
Proof.
  intros NK HB HT HW HC E. rewrite inner_time in E; rewrite (merge_is_binding _ _ _ vs NK HB) in *; auto.
  destruct (unify_dims_ok vs HC) as (dims' & ED & J).
  apply apply_ufunc_error in E. destruct E as (E & _ & H). assert (dims' = dims) by congruence. subst. split; auto.
  intros idx xs V HS. rewrite (slices_unique dims idx vs xs J V HW HS). auto.
Qed.
End W.

(** ** rejected calls *)
Section Rejected.
Context {A : Type} (dA : A).
Definition timed (v : val A) : Prop := exists ds n data, v = DA ds (Some n) data.
Lemma timed_has v : has_time v = true <-> timed v.
Proof.
  split; [destruct v as [| | |ds [n|] data]; try discriminate; intros _; exists ds, n, data; reflexivity|]. intros (ds & n & data & ->). reflexivity.
Qed.
Lemma timed_existsb vs : existsb has_time vs = true <-> Exists timed vs.
Proof.
  rewrite existsb_exists, Exists_exists. split; intros (v & Hv & H); exists v; (split; [auto|]); apply timed_has; auto.
Qed.

Lemma all_positional f (params : list (param A)) vs : length vs = length params -> inner dA f params vs [] =
  if existsb has_time vs then apply_ufunc dA f vs else py_call f params vs [].
Proof.
  intros L. unfold inner. replace (map snd (get_new_args_dict params vs [])) with vs; auto.
  apply (get_ext Empty); [rewrite dict_length; auto|]. intros i Hi. rewrite dict_get by lia. unfold new_arg.
  destruct (Nat.ltb_spec i (length vs)); [auto|lia].
Qed.

Lemma unknown_keyword f (params : list (param A)) args kw vs k v : NoDup (map fst params) -> NoDup (map fst kw) -> binds params args kw vs -> Exists timed vs ->
  (forall d, ~ In (k, d) params) -> inner dA f params args ((k, v) :: kw) = inner dA f params args kw.
Proof.
  intros NP NK HB HT HU. apply timed_existsb in HT. pose proof (merge_is_binding params args kw vs NK HB) as M.
  assert (M' : map snd (get_new_args_dict params args ((k, v) :: kw)) = vs).
  { rewrite merge_ignores_keyword; auto. intros i d Hi E. apply (HU d). rewrite <- E. apply get_In. apply Hi. }
  rewrite !inner_time; rewrite ?M, ?M'; auto.
Qed.
Lemma given_twice f (params : list (param A)) args kw vs i d k v : NoDup (map fst params) -> NoDup (map fst kw) -> binds params args kw vs -> Exists timed vs ->
  i < length args -> get (EmptyString, None) params i = (k, d) -> inner dA f params args ((k, v) :: kw) = inner dA f params args kw.
Proof.
  intros NP NK HB HT Hi E. apply timed_existsb in HT. pose proof (merge_is_binding params args kw vs NK HB) as M.
  assert (M' : map snd (get_new_args_dict params args ((k, v) :: kw)) = vs).
  { rewrite merge_ignores_keyword; auto. intros j e Hj Ej. assert (i = j); [|lia]. pose proof (b_not_too_many _ _ _ _ HB). eapply params_unique; eauto; lia. }
  rewrite !inner_time; rewrite ?M, ?M'; auto.
Qed.
Lemma surplus f (params : list (param A)) args kw vs extra : NoDup (map fst kw) -> binds params args kw vs -> Exists timed vs ->
  length args = length params -> inner dA f params (args ++ extra) kw = inner dA f params args kw.
Proof.
  intros NK HB HT L. apply timed_existsb in HT. pose proof (merge_is_binding params args kw vs NK HB) as M.
  assert (M' : map snd (get_new_args_dict params (args ++ extra) kw) = vs) by (rewrite merge_ignores_surplus; auto; lia).
  rewrite !inner_time; rewrite ?M, ?M'; auto.
Qed.

(** a required argument that is not given: the sentinel is passed on *)
Lemma missing f (params : list (param A)) args kw i k : i < length params -> length args <= i -> get (EmptyString, None) params i = (k, None) ->
  ~ (exists v, In (k, v) kw) -> Exists timed args -> length args <= length params ->
  exists vs, length vs = length params /\ get Empty vs i = Empty /\ (forall j, j < length args -> get Empty vs j = get Empty args j) /\
  inner dA f params args kw = inner dA f params vs [].
Proof.
  intros Hi Ha E N HT HL. exists (map snd (get_new_args_dict params args kw)).
  split; [apply dict_length|]. split; [apply (merge_missing params args kw i k); auto|].
  assert (P : forall j, j < length args -> get Empty (map snd (get_new_args_dict params args kw)) j = get Empty args j).
  { intros j Hj. rewrite dict_get by lia. unfold new_arg. destruct (Nat.ltb_spec j (length args)); [auto|lia]. }
  split; [exact P|]. rewrite all_positional by (apply dict_length).
  assert (T : existsb has_time (map snd (get_new_args_dict params args kw)) = true).
  { apply existsb_exists. apply Exists_exists in HT. destruct HT as (v & Hv & Tv). exists v. split; [|apply timed_has; auto].
    apply (In_get Empty) in Hv. destruct Hv as (j & Hj & <-). rewrite <- P by auto. apply get_In. rewrite dict_length. lia. }
  rewrite T. apply inner_time. exact T.
Qed.

(** without a time dimension Python's own check applies *)
Lemma untimed_rejected f (params : list (param A)) args kw : NoDup (map fst params) -> NoDup (map fst kw) ->
  Forall (fun v => ~ timed v) args -> (forall k v, In (k, v) kw -> ~ timed v) -> (forall k v, In (k, Some v) params -> ~ timed v) ->
  (forall vs, ~ binds params args kw vs) -> inner dA f params args kw = Err TypeError.
Proof.
  intros NP NK HA HK HD H. rewrite inner_no_time.
  - unfold py_call. rewrite py_bind_rejects; auto.
  - apply not_true_iff_false. intros T. apply timed_existsb in T. apply Exists_exists in T. destruct T as (v & Hv & Tv).
    apply (In_get Empty) in Hv. destruct Hv as (i & Hi & E). rewrite dict_length in Hi. rewrite dict_get in E by auto. unfold new_arg in E.
    rewrite Forall_forall in HA. destruct (Nat.ltb_spec i (length args)).
    + apply (HA v); auto. rewrite <- E. apply get_In; auto.
    + destruct (kw_get kw _) as [w|] eqn:G.
      * subst w. apply kw_get_some in G; auto. apply (HK _ _ G Tv).
      * destruct (snd (get dp params i)) as [d|] eqn:D; subst v; [|destruct Tv as (? & ? & ? & ?); discriminate].
        apply (HD (fst (get dp params i)) d); auto. rewrite <- D. rewrite <- surjective_pairing. apply get_In; auto.
Qed.
End Rejected.

(** ** get_blackout_start_and_end through the wrapper *)
From Verif Require Import Num NumList Blackout_model.
Section BlackoutWrapped.
Context {O : numops}.
(** the plain function on what the wrapper hands over (blackout_gap_detection.py:6-33):
    a series and a number; anything else fails in the comparison *)
Definition blackout_func : func O := fun xs =>
  match xs with
  | [Series rsl; Plain t] => let '(s, e) := get_blackout_start_and_end rsl t in
      Ok (RTuple [map (fun b : bool => if b then one else zero) s; map (fun b : bool => if b then one else zero) e])
  | _ => Err TypeError
  end.
Definition blackout_params : list (param O) := [("rsl"%string, None); ("rsl_threshold"%string, None)].
Lemma blackout_wrapped (ds : list (string * nat)) n data thr args kw : NoDup (map fst kw) ->
  (exists t, thr = Plain t) \/ (exists ds' data', thr = DA ds' None data') ->
  binds blackout_params args kw [DA ds (Some n) data; thr] -> inner (zero : O) blackout_func blackout_params args kw = Err ValueError.
Proof.
  intros NK HT HB. pose proof (merge_is_binding _ _ _ _ NK HB) as M. rewrite inner_time; rewrite M; [|reflexivity].
  apply tuple_rejected.
  - destruct HT as [[t ->]|(ds' & data' & ->)]; reflexivity.
  - intros dims idx.
    assert (P : exists t, slice_arg (zero : O) dims idx thr = Plain t).
    { destruct HT as [[t ->]|(ds' & data' & ->)]; eexists; reflexivity. }
    destruct P as [t Et]. cbn [map]. rewrite Et. cbn [slice_arg]. unfold blackout_func.
    destruct (get_blackout_start_and_end _ t) as [s e]. eexists. split; [reflexivity|]. discriminate.
Qed.
End BlackoutWrapped.

Lemma tuple_inner {A} (dA : A) f (params : list (param A)) args kw vs r : NoDup (map fst kw) -> binds params args kw vs -> Exists timed vs ->
  (forall xs t, f xs = Ok t -> exists l, t = RTuple l) -> inner dA f params args kw <> Ok r.
Proof.
  intros NK HB HT HF. apply timed_existsb in HT. pose proof (merge_is_binding _ _ _ _ NK HB) as M. rewrite inner_time; rewrite M; auto.
  apply tuple_never; auto.
Qed.
