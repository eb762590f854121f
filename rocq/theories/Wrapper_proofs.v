(** * Proofs about the xarray wrapper *)
From Coq Require Import List ZArith Bool String Lia.
From Verif Require Import Base Wrapper_model Wrapper_spec.
Import ListNotations.
Local Open Scope nat_scope.
Local Notation length := List.length.

Section W.
Context {A : Type} (dA : A).
Notation val := (val A). Notation param := (param A).
Definition dp : param := (EmptyString, None).

Lemma kw_get_some (kwargs : list (string * val)) k v : NoDup (map fst kwargs) -> (kw_get kwargs k = Some v <-> In (k, v) kwargs).
Proof.
  intros ND. unfold kw_get. induction kwargs as [|[k' v'] l IH]; cbn; [split; [discriminate|tauto]|].
  inversion ND as [|? ? Hn ND']; subst. destruct (String.eqb_spec k' k) as [->|N].
  - cbn. split; [intros [= ->]; auto|]. intros [[= ->]|H]; auto. exfalso. apply Hn. apply in_map_iff. exists (k, v). auto.
  - rewrite (IH ND'). split; [auto|]. intros [[= -> ->]|H]; [congruence|auto].
Qed.
Lemma kw_get_none (kwargs : list (string * val)) k : kw_get kwargs k = None <-> ~ exists v, In (k, v) kwargs.
Proof.
  unfold kw_get. induction kwargs as [|[k' v'] l IH]; cbn; [split; auto; intros _ (v & [])|].
  destruct (String.eqb_spec k' k) as [->|N].
  - cbn. split; [discriminate|]. intros H. exfalso. apply H. exists v'. auto.
  - rewrite IH. split; intros H (v & Hv); apply H; exists v; [|auto]. destruct Hv as [[= E _]|]; [congruence|auto].
Qed.

Lemma dict_values (params : list param) args kwargs :
  map snd (get_new_args_dict params args kwargs) = map (fun i => new_arg args kwargs i (get dp params i)) (seq 0 (length params)).
Proof.
  unfold get_new_args_dict. rewrite map_map. cbn [snd].
  apply (get_ext Empty); rewrite !map_length, combine_length, !seq_length, Nat.min_id; auto.
  intros i Hi. rewrite get_map_seq by auto.
  rewrite (get_map _ (0, dp)) by (rewrite combine_length, seq_length; lia).
  unfold get. rewrite combine_nth by (rewrite seq_length; auto). rewrite seq_nth by auto. reflexivity.
Qed.
Lemma dict_length (params : list param) args kwargs : length (map snd (get_new_args_dict params args kwargs)) = length params.
Proof. rewrite dict_values, map_length, seq_length. reflexivity. Qed.
Lemma dict_get (params : list param) args kwargs i : i < length params ->
  get Empty (map snd (get_new_args_dict params args kwargs)) i = new_arg args kwargs i (get dp params i).
Proof. intros. rewrite dict_values, get_map_seq by auto. reflexivity. Qed.

Lemma params_unique (params : list param) i j k d e : NoDup (map fst params) -> i < length params -> j < length params ->
  get dp params i = (k, d) -> get dp params j = (k, e) -> i = j.
Proof.
  intros ND Hi Hj Ei Ej. apply (proj1 (NoDup_nth (map fst params) EmptyString) ND); rewrite ?map_length; auto.
  unfold get in Ei, Ej.
  assert (Q : forall m, nth m (map fst params) EmptyString = fst (nth m params dp)) by (intro m; exact (map_nth fst params dp m)).
  rewrite !Q, Ei, Ej. reflexivity.
Qed.

(** the merged arguments are Python's binding *)
Lemma merge_is_binding (params : list param) args kwargs vs : NoDup (map fst kwargs) ->
  binds params args kwargs vs -> map snd (get_new_args_dict params args kwargs) = vs.
Proof.
  intros NK [L T K P KW D]. apply (get_ext Empty); [rewrite dict_length; auto|].
  rewrite dict_length. intros i Hi. rewrite dict_get by auto. unfold new_arg.
  destruct (Nat.ltb_spec i (length args)); [symmetry; auto|].
  destruct (get dp params i) as [k d] eqn:E. cbn [fst snd].
  destruct (kw_get kwargs k) as [v|] eqn:G.
  - apply kw_get_some in G; auto. symmetry. eapply KW; eauto.
  - apply kw_get_none in G. rewrite (D i k d); auto.
Qed.

(** Python's call in the model is that binding *)
Lemma in_names_iff (ps : list param) n : in_names ps n = true <-> exists i d, i < length ps /\ get dp ps i = (n, d).
Proof.
  unfold in_names. rewrite existsb_exists. split.
  - intros ([k d] & Hin & E). apply String.eqb_eq in E. cbn in E. subst. apply (In_get dp) in Hin. destruct Hin as (i & Hi & E). exists i, d. auto.
  - intros (i & d & Hi & E). exists (n, d). split; [rewrite <- E; apply get_In; auto|apply String.eqb_eq; reflexivity].
Qed.
Lemma get_skipn {B} (d : B) n l i : get d (skipn n l) i = get d l (n + i).
Proof. unfold get. revert l. induction n as [|n IH]; intros l; auto. destruct l; [destruct i; reflexivity|]. cbn. apply IH. Qed.
Lemma get_firstn {B} (d : B) n l i : i < n -> get d (firstn n l) i = get d l i.
Proof. intros H. unfold get. revert l i H. induction n as [|n IH]; intros l i H; [lia|]. destruct l; auto. destruct i; cbn; auto. apply IH. lia. Qed.

Lemma bind_rest_ok (ps : list param) kwargs vs : NoDup (map fst kwargs) -> bind_rest ps kwargs = Ok vs ->
  length vs = length ps /\ forall i, i < length ps -> get Empty vs i = new_arg [] kwargs i (get dp ps i) /\
    ((exists v, In (fst (get dp ps i), v) kwargs) \/ snd (get dp ps i) = Some (get Empty vs i)).
Proof.
  intros NK. revert vs. induction ps as [|[k d] ps IH]; intros vs E; cbn in E.
  - injection E as <-. split; auto. intros i Hi. inversion Hi.
  - destruct (kw_get kwargs k) as [v|] eqn:G; [|destruct d as [d|]; [|discriminate]]; cbn in E;
      (destruct (bind_rest ps kwargs) as [vs'|e]; [|discriminate]); injection E as <-;
      destruct (IH vs' eq_refl) as [L H]; (split; [cbn; auto|]); intros [|i] Hi; cbn in Hi.
    + cbn. unfold new_arg. cbn. rewrite G. split; auto. left. exists v. apply kw_get_some; auto.
    + destruct (H i) as [H1 H2]; [lia|]. split; auto.
    + cbn. unfold new_arg. cbn. rewrite G. split; auto.
    + destruct (H i) as [H1 H2]; [lia|]. split; auto.
Qed.
Lemma bind_rest_complete (ps : list param) kwargs : (forall i, i < length ps -> (exists v, In (fst (get dp ps i), v) kwargs) \/ snd (get dp ps i) <> None) ->
  exists vs, bind_rest ps kwargs = Ok vs.
Proof.
  induction ps as [|[k d] ps IH]; intros H; [eexists; reflexivity|].
  destruct IH as [vs E]; [intros i Hi; apply (H (S i)); cbn; lia|]. cbn.
  destruct (kw_get kwargs k) as [v|] eqn:G; [eexists; cbn; rewrite E; reflexivity|].
  destruct d as [d|]; [eexists; cbn; rewrite E; reflexivity|].
  exfalso. destruct (H 0) as [K|K]; [cbn; lia| |cbn in K; congruence]. apply kw_get_none in G. apply G. exact K.
Qed.

Lemma py_bind_correct (params : list param) args kwargs vs : NoDup (map fst params) -> NoDup (map fst kwargs) ->
  (py_bind params args kwargs = Ok vs <-> binds params args kwargs vs).
Proof.
  intros NP NK. unfold py_bind. split.
  - destruct (Nat.ltb_spec (length params) (length args)); [discriminate|].
    destruct (forallb _ kwargs) eqn:F; [|discriminate]. cbn [negb].
    destruct (existsb _ kwargs) eqn:X; [discriminate|].
    destruct (bind_rest (skipn (length args) params) kwargs) as [rest|] eqn:B; [|discriminate]. cbn. intros [= <-].
    destruct (bind_rest_ok _ _ _ NK B) as [L HB]. rewrite skipn_length in *.
    assert (GR : forall i, length args <= i -> get Empty (args ++ rest) i = get Empty rest (i - length args)).
    { intros i Hi. unfold get. rewrite app_nth2 by auto. reflexivity. }
    assert (GP : forall i, length args <= i -> get dp (skipn (length args) params) (i - length args) = get dp params i).
    { intros i Hi. rewrite get_skipn. f_equal. lia. }
    split.
    + rewrite app_length. lia.
    + auto.
    + intros k v Hin. rewrite forallb_forall in F. specialize (F _ Hin). cbn in F. apply in_names_iff in F. destruct F as (i & d & Hi & E).
      exists i, d. split; auto. split; auto. apply Nat.nlt_ge. intros Hlt.
      assert (existsb (fun k0 => in_names (firstn (length args) params) (fst k0)) kwargs = true); [|congruence].
      apply existsb_exists. exists (k, v). split; auto. cbn. apply in_names_iff. exists i, d. rewrite firstn_length. split; [lia|].
      rewrite get_firstn; auto.
    + intros i Hi. unfold get. rewrite app_nth1; auto.
    + intros i k d v Hi E Hin. rewrite GR by lia. destruct (HB (i - length args)) as [H1 _]; [lia|]. rewrite H1, GP by lia.
      change (@get param dp params i = (k, d)) in E. rewrite E. unfold new_arg. cbn. rewrite (proj2 (kw_get_some kwargs k v NK) Hin). reflexivity.
    + intros i k d Hi E Hno. rewrite GR by lia. destruct (HB (i - length args)) as [_ H2]; [lia|]. rewrite GP in H2 by lia.
      change (@get param dp params i = (k, d)) in E. rewrite E in H2. cbn in H2. destruct H2 as [H2|H2]; auto. contradiction.
  - intros B. destruct B as [L T K P KW D].
    destruct (Nat.ltb_spec (length params) (length args)); [lia|].
    assert (F : forallb (fun k => in_names params (fst k)) kwargs = true).
    { apply forallb_forall. intros [k v] Hin. cbn. destruct (K k v Hin) as (i & d & Hi & E). apply in_names_iff. exists i, d. split; [lia|auto]. }
    rewrite F. cbn [negb].
    assert (X : existsb (fun k => in_names (firstn (length args) params) (fst k)) kwargs = false).
    { apply not_true_iff_false. intros X. apply existsb_exists in X. destruct X as ([k v] & Hin & X). cbn in X. apply in_names_iff in X.
      destruct X as (j & e & Hj & Ej). rewrite firstn_length in Hj. rewrite get_firstn in Ej by lia.
      destruct (K k v Hin) as (i & d & Hi & E). assert (i = j); [|lia]. eapply params_unique; eauto; lia. }
    rewrite X.
    destruct (bind_rest_complete (skipn (length args) params) kwargs) as [rest E].
    { intros i Hi. rewrite skipn_length in Hi. rewrite get_skipn. destruct (get dp params (length args + i)) as [k d] eqn:E. cbn [fst snd].
      destruct (kw_get kwargs k) as [v|] eqn:G; [left; exists v; apply kw_get_some; auto|].
      right. rewrite (D (length args + i) k d); [discriminate|lia|exact E|apply kw_get_none; auto]. }
    rewrite E. cbn. f_equal. destruct (bind_rest_ok _ _ _ NK E) as [LR HR]. rewrite skipn_length in *.
    apply (get_ext Empty); [rewrite app_length; lia|]. rewrite app_length. intros i Hi.
    destruct (Nat.lt_ge_cases i (length args)) as [Hlt|Hge].
    + rewrite P by auto. unfold get. rewrite app_nth1; auto.
    + unfold get. rewrite app_nth2 by auto. fold (get Empty rest (i - length args)). fold (get Empty vs i).
      destruct (HR (i - length args)) as [H1 _]; [lia|]. rewrite H1, get_skipn. replace (length args + (i - length args)) with i by lia.
      unfold new_arg. cbn. destruct (get dp params i) as [k d] eqn:EP. cbn.
      destruct (kw_get kwargs k) as [v|] eqn:G.
      * symmetry. eapply KW; eauto; [lia|apply kw_get_some; auto].
      * rewrite (D i k d); [reflexivity|lia|exact EP|apply kw_get_none; auto].
Qed.

(** ** calls Python would reject *)
Lemma new_arg_kwargs_ext args kw kw' i (p : param) : (length args <= i -> kw_get kw (fst p) = kw_get kw' (fst p)) -> new_arg args kw i p = new_arg args kw' i p.
Proof. intros H. unfold new_arg. destruct (Nat.ltb_spec i (length args)); auto. rewrite H by auto. reflexivity. Qed.

Lemma merge_ignores_keyword (params : list param) args kw k v : NoDup (map fst params) ->
  (forall i d, length args <= i < length params -> get dp params i <> (k, d)) ->
  map snd (get_new_args_dict params args ((k, v) :: kw)) = map snd (get_new_args_dict params args kw).
Proof.
  intros ND H. rewrite !dict_values. apply map_ext_in. intros i Hi. apply in_seq in Hi. apply new_arg_kwargs_ext. intros Hge.
  unfold kw_get. cbn. destruct (String.eqb_spec k (fst (get dp params i))) as [E|]; auto. exfalso.
  apply (H i (snd (get dp params i))); [lia|]. rewrite E. destruct (get dp params i); reflexivity.
Qed.
Lemma merge_ignores_surplus (params : list param) args extra kw : length params <= length args ->
  map snd (get_new_args_dict params (args ++ extra) kw) = map snd (get_new_args_dict params args kw).
Proof.
  intros H. rewrite !dict_values. apply map_ext_in. intros i Hi. apply in_seq in Hi. unfold new_arg. rewrite app_length.
  destruct (Nat.ltb_spec i (length args + length extra)); [|lia]. destruct (Nat.ltb_spec i (length args)); [|lia].
  unfold get. rewrite app_nth1; auto.
Qed.
Lemma merge_missing (params : list param) args kw i k : i < length params -> length args <= i -> get dp params i = (k, None) ->
  ~ (exists v, In (k, v) kw) -> get Empty (map snd (get_new_args_dict params args kw)) i = Empty.
Proof.
  intros Hi Ha E N. rewrite dict_get by auto. rewrite E. unfold new_arg. destruct (Nat.ltb_spec i (length args)); [lia|].
  cbn. apply kw_get_none in N. rewrite N. reflexivity.
Qed.

Lemma inner_time f (params : list param) args kw : existsb has_time (map snd (get_new_args_dict params args kw)) = true ->
  inner dA f params args kw = apply_ufunc dA f (map snd (get_new_args_dict params args kw)).
Proof. intros H. unfold inner. rewrite H. reflexivity. Qed.
Lemma inner_no_time f (params : list param) args kw : existsb has_time (map snd (get_new_args_dict params args kw)) = false ->
  inner dA f params args kw = py_call f params args kw.
Proof. intros H. unfold inner. rewrite H. reflexivity. Qed.

Lemma bind_rest_err (ps : list param) kw e : bind_rest ps kw = Err e -> e = TypeError.
Proof.
  revert e. induction ps as [|[k d] ps IH]; cbn; intros e E; [discriminate|].
  destruct (kw_get kw k); cbn in E; [|destruct d; cbn in E; [|congruence]];
    (destruct (bind_rest ps kw) as [x|x]; cbn in E; [discriminate|injection E as <-; apply IH; reflexivity]).
Qed.
Lemma py_bind_rejects (params : list param) args kw : NoDup (map fst params) -> NoDup (map fst kw) ->
  (forall vs, ~ binds params args kw vs) -> py_bind params args kw = Err TypeError.
Proof.
  intros NP NK H. destruct (py_bind params args kw) as [vs|e] eqn:E.
  - exfalso. apply (H vs). apply py_bind_correct; auto.
  - f_equal. unfold py_bind in E. destruct (_ <? _); [congruence|]. destruct (negb _); [congruence|]. destruct (existsb _ _); [congruence|].
    destruct (bind_rest _ _) as [x|x] eqn:B; cbn in E; [discriminate|]. injection E as <-. apply bind_rest_err in B. congruence.
Qed.

(** ** row-major order *)
Lemma prod_fold s : prod s = fold_right Nat.mul 1 s.
Proof. induction s; cbn; auto. Qed.
Lemma position_rm s ix : rm_index s ix = position s ix.
Proof. revert ix. induction s as [|n s IH]; intros [|i ix]; cbn; auto. Qed.
Lemma flat_map_length_const {B C} (f : B -> list C) l n : (forall x, In x l -> length (f x) = n) -> length (flat_map f l) = length l * n.
Proof. induction l as [|x l IH]; intros H; cbn; auto. rewrite app_length, H, IH; auto; [intros; apply H; right; auto|left; auto]. Qed.
Lemma ndindex_length s : length (ndindex s) = prod s.
Proof.
  induction s as [|n s IH]; auto. cbn. rewrite flat_map_length_const with (n := prod s); [rewrite seq_length; auto|].
  intros. rewrite map_length. auto.
Qed.
Lemma flat_map_get {B C} (d : C) (f : B -> list C) (db : B) l n i j : (forall x, In x l -> length (f x) = n) -> i < length l -> j < n ->
  get d (flat_map f l) (i * n + j) = get d (f (get db l i)) j.
Proof.
  revert i. induction l as [|x l IH]; intros i H Hi Hj; [inversion Hi|]. cbn [flat_map].
  assert (Lx : length (f x) = n) by (apply H; left; auto). destruct i as [|i].
  - unfold get. rewrite app_nth1 by (cbn; lia). reflexivity.
  - unfold get. rewrite app_nth2 by (cbn; lia). rewrite Lx. replace (S i * n + j - n) with (i * n + j) by (cbn; lia).
    apply IH; auto; [intros; apply H; right; auto|cbn in Hi; lia].
Qed.
Lemma position_lt s ix : valid_index s ix -> position s ix < prod s.
Proof.
  unfold valid_index. revert ix. induction s as [|n s IH]; intros ix H; inversion H; subst; cbn; auto.
  specialize (IH _ H4). rewrite <- prod_fold. nia.
Qed.
Lemma ndindex_get s ix : valid_index s ix -> get [] (ndindex s) (position s ix) = ix.
Proof.
  unfold valid_index. revert ix. induction s as [|n s IH]; intros ix H; inversion H; subst; auto. cbn [ndindex position].
  rewrite <- prod_fold. pose proof (position_lt s l H4) as PL.
  rewrite flat_map_get with (db := 0) (n := prod s); [|intros; rewrite map_length, ndindex_length; auto|rewrite seq_length; auto|auto].
  rewrite (get_map _ []) by (rewrite ndindex_length; auto). rewrite IH by auto. unfold get. rewrite seq_nth by auto. reflexivity.
Qed.

(** ** the loop over the series *)
Lemma vec_loop_ok f n dims vs idxs first : (first = true -> idxs <> []) ->
  (forall idx, In idx idxs -> exists l, f (map (slice_arg dA dims idx) vs) = Ok (RSeries l) /\ length l = n) ->
  exists out, vec_loop dA f n dims vs first idxs = Ok out /\ length out = length idxs * n /\
  forall i, i < length idxs -> f (map (slice_arg dA dims (get [] idxs i)) vs) = Ok (RSeries (firstn n (skipn (i * n) out))).
Proof.
  revert first. induction idxs as [|idx idxs IH]; intros first Hf H.
  - destruct first; [exfalso; apply Hf; auto|]. exists []. cbn. split; auto. split; auto. intros i Hi. inversion Hi.
  - destruct (H idx (or_introl eq_refl)) as (l & El & Ll).
    destruct (IH false) as (out & Eo & Lo & Ho); [discriminate|intros; apply H; right; auto|].
    exists (l ++ out). cbn [vec_loop]. rewrite El. cbn [bind fit]. rewrite Ll, Nat.eqb_refl. cbn [bind]. rewrite Eo. cbn [bind].
    split; auto. split; [rewrite app_length; cbn; lia|]. intros [|i] Hi.
    + cbn [get nth]. change (get [] (idx :: idxs) 0) with idx. rewrite El. cbn. rewrite firstn_app, Ll, Nat.sub_diag, firstn_all2 by lia. rewrite app_nil_r. reflexivity.
    + change (get [] (idx :: idxs) (S i)) with (get [] idxs i). cbn in Hi. rewrite Ho by lia. do 2 f_equal.
      rewrite skipn_app, Ll. rewrite (skipn_all2 l) by lia. cbn [app]. do 2 f_equal. lia.
Qed.

Lemma ndindex_In s ix : In ix (ndindex s) -> valid_index s ix.
Proof.
  unfold valid_index. revert ix. induction s as [|n s IH]; cbn; intros ix H.
  - destruct H as [<-|[]]. constructor.
  - apply in_flat_map in H. destruct H as (i & Hi & H). apply in_map_iff in H. destruct H as (r & <- & Hr). apply in_seq in Hi. constructor; [lia|auto].
Qed.

Lemma apply_ufunc_ok f vs n dims : existsb is_numpy vs = false -> unify_time vs = Ok n -> unify_dims vs = Ok dims -> Forall (fun d => 0 < snd d) dims ->
  (forall idx, valid_index (map snd dims) idx -> exists l, f (map (slice_arg dA dims idx) vs) = Ok (RSeries l) /\ length l = n) ->
  exists out, apply_ufunc dA f vs = Ok (RDA dims n out) /\ length out = fold_right Nat.mul 1 (map snd dims) * n /\
  forall idx, valid_index (map snd dims) idx ->
    f (map (slice_arg dA dims idx) vs) = Ok (RSeries (firstn n (skipn (position (map snd dims) idx * n) out))).
Proof.
  intros HN HT HD HP HF.
  assert (PP : 0 < prod (map snd dims)). { clear - HP. induction HP; cbn; auto. nia. }
  destruct (vec_loop_ok f n dims vs (ndindex (map snd dims)) true) as (out & E & L & H).
  - intros _ K. pose proof (ndindex_length (map snd dims)) as NL. rewrite K in NL. cbn in NL. lia.
  - intros idx Hin. apply HF. apply ndindex_In; auto.
  - exists out. unfold apply_ufunc. rewrite HN, HT. cbn [bind]. rewrite HD. cbn [bind]. rewrite E. cbn [bind]. split; auto.
    rewrite ndindex_length in *. split; [rewrite <- prod_fold; auto|]. intros idx Hi.
    specialize (H (position (map snd dims) idx)). rewrite ndindex_get in H by auto. apply H. apply position_lt; auto.
Qed.

(** errors: the result is Ok only if every series succeeded *)
Lemma vec_loop_all f n dims vs idxs first out : vec_loop dA f n dims vs first idxs = Ok out ->
  forall idx, In idx idxs -> exists r, f (map (slice_arg dA dims idx) vs) = Ok r /\ forall l, r <> RTuple l.
Proof.
  revert first out. induction idxs as [|x idxs IH]; intros first out E idx Hin; [destruct Hin|]. cbn in E.
  destruct (f (map (slice_arg dA dims x) vs)) as [r|] eqn:Er; [|discriminate]. cbn in E.
  destruct (fit dA n first r) as [l|] eqn:Ef; [|discriminate]. cbn in E.
  destruct (vec_loop dA f n dims vs false idxs) as [rest|] eqn:El; [|discriminate].
  destruct Hin as [<-|Hin]; [|eapply IH; eauto]. exists r. split; auto. intros t ->. cbn in Ef. destruct (_ =? _); discriminate.
Qed.
Lemma apply_ufunc_error f vs : forall dims n out, apply_ufunc dA f vs = Ok (RDA dims n out) ->
  unify_dims vs = Ok dims /\ unify_time vs = Ok n /\
  forall idx, valid_index (map snd dims) idx -> exists r, f (map (slice_arg dA dims idx) vs) = Ok r.
Proof.
  intros dims n out. unfold apply_ufunc. destruct (existsb is_numpy vs); [discriminate|].
  destruct (unify_time vs) as [n'|]; [|discriminate]. cbn [bind]. destruct (unify_dims vs) as [dims'|]; [|discriminate]. cbn [bind].
  destruct (vec_loop dA f n' dims' vs true (ndindex (map snd dims'))) as [o|] eqn:E; [|discriminate]. cbn [bind]. intros [= <- <- <-].
  split; auto. split; auto. intros idx Hi. destruct (vec_loop_all _ _ _ _ _ _ _ E idx) as (r & Er & _); [|exists r; auto].
  rewrite <- (ndindex_get _ _ Hi). apply get_In. rewrite ndindex_length. apply position_lt; auto.
Qed.

(** ** results with more than one output *)
Lemma tuple_never f vs r : (forall xs t, f xs = Ok t -> exists l, t = RTuple l) -> apply_ufunc dA f vs <> Ok r.
Proof.
  intros HF. unfold apply_ufunc. destruct (existsb is_numpy vs); [discriminate|].
  destruct (unify_time vs) as [n|]; [|discriminate]. cbn [bind]. destruct (unify_dims vs) as [dims|]; [|discriminate]. cbn [bind].
  destruct (ndindex (map snd dims)) as [|idx idxs]; [discriminate|].
  destruct (vec_loop dA f n dims vs true (idx :: idxs)) as [out|] eqn:E; [|discriminate].
  destruct (vec_loop_all _ _ _ _ _ _ _ E idx (or_introl eq_refl)) as (t & Et & Ht). destruct (HF _ _ Et) as [l ->]. exfalso. apply (Ht l). reflexivity.
Qed.
Lemma unify_time_ok_err (vs : list val) e : unify_time vs = Err e -> e = ValueError.
Proof. unfold unify_time. destruct (time_lengths vs); [congruence|]. destruct (forallb _ _); congruence. Qed.
Lemma add_dims_err l acc e : add_dims acc l = Err e -> e = ValueError.
Proof.
  revert acc. induction l as [|dn l IH]; intros acc; [discriminate|]. cbn. unfold add_dim.
  destruct (find _ acc) as [p|]; [destruct (_ =? _); cbn; [apply IH|congruence]|cbn; apply IH].
Qed.
Lemma tuple_rejected f vs : existsb is_numpy vs = false -> (forall dims idx, exists l, f (map (slice_arg dA dims idx) vs) = Ok (RTuple l) /\ length l <> 1) ->
  apply_ufunc dA f vs = Err ValueError.
Proof.
  intros HN HF. unfold apply_ufunc. rewrite HN.
  destruct (unify_time vs) as [n|e] eqn:ET; [|cbn; apply unify_time_ok_err in ET; congruence]. cbn [bind].
  destruct (unify_dims vs) as [dims|e] eqn:ED; [|cbn; apply add_dims_err in ED; congruence]. cbn [bind].
  destruct (ndindex (map snd dims)) as [|idx idxs]; [reflexivity|]. cbn [vec_loop].
  destruct (HF dims idx) as (l & El & Ll). rewrite El. cbn [bind fit].
  destruct (Nat.eqb_spec (length l) 1); [congruence|]. reflexivity.
Qed.
End W.
