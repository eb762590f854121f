(** * Corollaries for the two caches *)
From Coq Require Import List Bool String Ascii Lia.
From Verif Require Import Base Cache_model Cache_spec Cache_proofs Cache_proofs2 Cache_proofs3.
Import ListNotations.
Local Open Scope nat_scope.
Local Open Scope string_scope.
Local Open Scope list_scope.

Lemma tf_name_iff url c : last_component url c <-> c = tf_name url.
Proof. split; [intros H; eapply last_component_unique; [exact H|apply tf_name_spec]|intros ->; apply tf_name_spec]. Qed.

Section P.
Context {C : Type}.
Lemma tf_content (h : list (string * bool * transfer C)) name v : regular name ->
  (cached_file (tf_run h None) name = Some v <-> stored (tf_history h) name v).
Proof. intros R. rewrite tf_run_gen. destruct (run_inv (tf_history h)) as [_ I]. apply (I name R). Qed.
Lemma tf_request (h : list (string * bool * transfer C)) url f tr : regular (tf_name url) ->
  let '(s', r, b) := download_and_cache url f tr (tf_run h None) in
  (b = true <-> f = true \/ ~ cached (tf_history h) (tf_name url)) /\
  (r = Ok (tf_name url) /\ cached_file s' (tf_name url) <> None <-> (b = false \/ exists c, tr = Complete c)) /\ (forall e, r = Err e -> e = OtherError) /\
  (b = false -> cached_file s' (tf_name url) = cached_file (tf_run h None) (tf_name url)).
Proof. intros R. rewrite tf_run_gen, tf_fetch. apply request_after. exact R. Qed.
Lemma torch_content md5 (h : list (option (string * bool * transfer C))) url v :
  cached_file (torch_run md5 h None) (model_filename md5 url) = Some v <-> stored (torch_history md5 h) (model_filename md5 url) v.
Proof. rewrite torch_run_gen. destruct (run_inv (torch_history md5 h)) as [_ I]. apply (I _ (model_filename_regular md5 url)). Qed.
Lemma torch_request md5 (h : list (option (string * bool * transfer C))) url f tr :
  let '(s', r, b) := download_and_cache_model md5 url f tr (torch_run md5 h None) in
  (b = true <-> f = true \/ ~ cached (torch_history md5 h) (model_filename md5 url)) /\
  (r = Ok (model_filename md5 url) /\ cached_file s' (model_filename md5 url) <> None <-> (b = false \/ exists c, tr = Complete c)) /\ (forall e, r = Err e -> e = OtherError) /\
  (b = false -> cached_file s' (model_filename md5 url) = cached_file (torch_run md5 h None) (model_filename md5 url)).
Proof. rewrite torch_run_gen, torch_fetch. apply request_after. apply model_filename_regular. Qed.

Lemma tf_directory (h : list (string * bool * transfer C)) url f tr : ~ regular (tf_name url) ->
  let '(s', r, b) := download_and_cache url f tr (tf_run h None) in
  b = f /\ r = (if f then Err OtherError else Ok (tf_name url)) /\ forall n, cached_file s' n = cached_file (tf_run h None) n.
Proof.
  intros R. rewrite tf_run_gen, tf_fetch. destruct (run_inv (tf_history h)) as [G _]. pose proof (fetch_spec (tf_name url) f tr _ G) as F.
  destruct (fetch (tf_name url) f tr (gen_run (tf_history h) None)) as [[s' r] b]. destruct F as (_ & Fo & _ & Fn). destruct (Fn R) as [-> ->]. split; [reflexivity|]. split; [reflexivity|]. intros n. apply Fo. right. exact R.
Qed.
Lemma is_url_spec s : is_url s = true <-> is_http s.
Proof. apply http_spec. Qed.
Lemma one_name (h : list (string * bool * transfer C)) json weights tr1 tr2 s' r b :
  is_http json -> is_http weights -> tf_name json = tf_name weights -> regular (tf_name json) ->
  resolve_model_paths json weights false tr1 tr2 (tf_run h None) = (s', r, b) ->
  snd b = false /\ forall l1 l2, r = Ok (l1, l2) -> l1 = l2.
Proof.
  intros HJ HW EN R. unfold resolve_model_paths, resolve_one. rewrite (proj2 (is_url_spec json) HJ), (proj2 (is_url_spec weights) HW).
  rewrite !tf_fetch. rewrite tf_run_gen. set (s := gen_run (tf_history h) None). destruct (run_inv (tf_history h)) as [G0 _]. fold s in G0.
  assert (G : good (Some (mkdir s))) by (destruct s; cbn in *; auto; intros p []).
  pose proof (fetch_spec (tf_name json) false tr1 _ G) as F. destruct (fetch (tf_name json) false tr1 (Some (mkdir s))) as [[s1 r1] b1]. destruct F as (G1 & _ & Fr & _). destruct (Fr R) as (Eb & Ef & Er).
  destruct r1 as [n1|e]; cbn [bind]; [|intros E; injection E as <- <- <-; split; [reflexivity|discriminate]].
  assert (P : file s1 (tf_name json) <> None).
  { rewrite Ef. destruct b1.
    - destruct tr1; try discriminate.
    - intros N. rewrite N in Eb. discriminate. }
  rewrite tf_fetch, <- EN. pose proof (fetch_spec (tf_name json) false tr2 _ G1) as F2. destruct (fetch (tf_name json) false tr2 s1) as [[s2 r2] b2]. destruct F2 as (_ & _ & Fr2 & _). destruct (Fr2 R) as (Eb2 & _ & Er2).
  destruct (file s1 (tf_name json)); [|congruence]. cbn in Eb2. subst b2. rewrite Er2. cbn [bind]. intros E. injection E as <- <- <-. split; auto.
  intros l1 l2 E. injection E as <- <-. f_equal. destruct b1; [destruct tr1; congruence|congruence].
Qed.
Lemma tf_truncated (h k : list (string * bool * transfer C)) url f p :
  regular (tf_name url) -> (f = true \/ ~ cached (tf_history h) (tf_name url)) ->
  (forall u f' tr, In (u, f', tr) k -> tf_name u = tf_name url -> f' = false) ->
  cached_file (tf_run (h ++ (url, f, Interrupted p) :: k) None) (tf_name url) = Some p.
Proof.
  intros R W K. rewrite tf_run_gen. unfold tf_history. rewrite map_app. cbn [map]. apply truncated_stays; auto.
  intros e He. apply in_map_iff in He. destruct He as ([[u f'] tr'] & <- & Hin). split; [discriminate|]. intros tr E. injection E as En -> _. specialize (K _ _ _ Hin En). discriminate.
Qed.
Lemma model_filename_inj md5 u v : model_filename md5 u = model_filename md5 v -> md5 u = md5 v.
Proof.
  intros E. apply (f_equal (fun s => substring 6 (String.length s - 9) s)) in E. unfold model_filename in E.
  assert (Q : forall x, substring 6 (String.length ("model_" ++ x ++ ".pt")%string - 9) ("model_" ++ x ++ ".pt")%string = x).
  { intros x. rewrite !length_append. cbn [String.length]. replace (6 + (String.length x + 3) - 9) with (String.length x) by lia. cbn.
    induction x as [|c x IH]; [reflexivity|]. cbn. f_equal. exact IH. }
  rewrite !Q in E. exact E.
Qed.
Lemma torch_truncated md5 (h k : list (option (string * bool * transfer C))) url f p :
  (f = true \/ ~ cached (torch_history md5 h) (model_filename md5 url)) ->
  (forall e, In e k -> e <> None /\ forall u tr, md5 u = md5 url -> e <> Some (u, true, tr)) ->
  cached_file (torch_run md5 (h ++ Some (url, f, Interrupted p) :: k) None) (model_filename md5 url) = Some p.
Proof.
  intros W K. rewrite torch_run_gen. unfold torch_history. rewrite map_app. cbn [map option_map]. apply truncated_stays; auto; [apply model_filename_regular|].
  intros e He. apply in_map_iff in He. destruct He as (e0 & <- & Hin). destruct (K e0 Hin) as [K1 K2]. destruct e0 as [[[u f'] tr']|]; [|congruence]. cbn. split; [discriminate|].
  intros tr E. injection E as En -> ->. apply (K2 u tr); auto. apply model_filename_inj. unfold model_filename. cbn. congruence.
Qed.
Lemma tf_complete (h : list (string * bool * transfer C)) name v : regular name -> (forall u f p, ~ In (u, f, Interrupted p) h) ->
  cached_file (tf_run h None) name = Some v -> exists u f, In (u, f, Complete v) h /\ tf_name u = name.
Proof.
  intros R N E. apply tf_content in E; auto. apply stored_complete in E.
  - destruct E as [f E]. unfold tf_history in E. apply in_map_iff in E. destruct E as ([[u f'] tr] & E & Hin). injection E as E -> ->. exists u, f. auto.
  - intros n f p H. unfold tf_history in H. apply in_map_iff in H. destruct H as ([[u f'] tr] & E' & Hin). injection E' as _ -> ->. eapply N; eauto.
Qed.
Lemma torch_complete md5 (h : list (option (string * bool * transfer C))) url v : (forall u f p, ~ In (Some (u, f, Interrupted p)) h) ->
  cached_file (torch_run md5 h None) (model_filename md5 url) = Some v -> exists u f, In (Some (u, f, Complete v)) h /\ md5 u = md5 url.
Proof.
  intros N E. apply torch_content in E. apply stored_complete in E.
  - destruct E as [f E]. unfold torch_history in E. apply in_map_iff in E. destruct E as ([[[u f'] tr]|] & E & Hin); [|discriminate]. injection E as E -> ->. exists u, f. split; auto.
    apply model_filename_inj. unfold model_filename. cbn. congruence.
  - intros n f p H. unfold torch_history in H. apply in_map_iff in H. destruct H as ([[[u f'] tr]|] & E' & Hin); [|discriminate]. injection E' as _ -> ->. eapply N; eauto.
Qed.
Lemma listing_refuted md5 url (c : C) :
  let s := torch_run md5 [Some (url, false, Complete c)] None in
  cached_file s (model_filename md5 url) = Some c /\ list_cached_models ".pt" s = Ok [].
Proof.
  cbv zeta. split.
  - apply torch_content. exists 0, false, (Complete c). split; [reflexivity|]. split; [right; auto|]. split; [right; intros ([|i] & f & tr & E & _); discriminate|].
    intros [|k] Hk; [lia|]. split; [destruct k; discriminate|]. intros tr E. destruct k; discriminate.
  - destruct (default_listing (torch_run md5 [Some (url, false, Complete c)] None) md5) as (l & E & H1 & H2). reflexivity.
Qed.
Lemma clear_then_download md5 (h : list (option (string * bool * transfer C))) url tr :
  snd (clear_model_cache (torch_run md5 h None)) = Ok tt /\ (forall n, cached_file (fst (clear_model_cache (torch_run md5 h None))) n = None) /\
  snd (download_and_cache_model md5 url false tr (torch_run md5 (h ++ [None]) None)) = true.
Proof.
  destruct (run_inv (torch_history md5 h)) as [G _]. rewrite <- torch_run_gen in G. split; [|split].
  - destruct (torch_run md5 h None) as [d|]; [|reflexivity]. rewrite clear_files by exact G. reflexivity.
  - intros n. destruct (torch_run md5 h None) as [d|]; [|reflexivity]. rewrite clear_files by exact G. reflexivity.
  - pose proof (torch_request md5 (h ++ [None]) url false tr) as Q. destruct (download_and_cache_model md5 url false tr (torch_run md5 (h ++ [None]) None)) as [[s' r] b].
    destruct Q as (Q & _). cbn [snd]. apply Q. right. unfold torch_history. rewrite map_app. apply clear_forgets.
Qed.
Lemma second_call md5 (h : list (option (string * bool * transfer C))) url f tr f' tr' name :
  snd (fst (download_and_cache_model md5 url f tr (torch_run md5 h None))) = Ok name ->
  snd (download_and_cache_model md5 url f' tr' (torch_run md5 (h ++ [Some (url, f, tr)]) None)) = f'.
Proof.
  intros E. pose proof (torch_request md5 h url f tr) as Q. destruct (download_and_cache_model md5 url f tr (torch_run md5 h None)) as [[s1 r1] b1] eqn:Ed. cbn [fst snd] in E. subst r1. destruct Q as (_ & Qr & _).
  assert (P : file s1 (model_filename md5 url) <> None).
  { rewrite torch_fetch, torch_run_gen in Ed. destruct (run_inv (torch_history md5 h)) as [G _]. pose proof (fetch_spec (model_filename md5 url) f tr _ G) as F. rewrite Ed in F.
    destruct F as (_ & _ & Fr & _). destruct (Fr (model_filename_regular md5 url)) as (Eb & Ef & Er). rewrite Ef. destruct b1; [destruct tr; discriminate|].
    intros N. rewrite N, orb_true_r in Eb. discriminate. }
  pose proof (torch_request md5 (h ++ [Some (url, f, tr)]) url f' tr') as Q. destruct (download_and_cache_model md5 url f' tr' (torch_run md5 (h ++ [Some (url, f, tr)]) None)) as [[s2 r2] b2]. destruct Q as (Q & _). cbn [snd].
  assert (CA : cached (torch_history md5 (h ++ [Some (url, f, tr)])) (model_filename md5 url)).
  { destruct (run_inv (torch_history md5 (h ++ [Some (url, f, tr)]))) as [_ I]. apply (I _ (model_filename_regular md5 url)).
    unfold torch_history. rewrite map_app. cbn [map option_map]. rewrite gen_run_snoc. cbn [step]. fold (torch_history md5 h). rewrite <- torch_run_gen, <- torch_fetch, Ed. cbn [fst]. exact P. }
  destruct b2, f'; auto.
  - destruct (proj1 Q eq_refl) as [K|K]; [discriminate|contradiction].
  - exfalso. assert (false = true) by (apply Q; auto). discriminate.
Qed.
Lemma clear_fails (d : dir C) : In Dir (map snd d) -> snd (clear_model_cache (Some d)) = Err OtherError.
Proof.
  intros H. cbn. assert (Q : forall l d, In Dir (map snd l) -> snd (@unlink_all C l d) = Err OtherError).
  { clear. induction l as [|[n [c|]] l IH]; intros d H; [destruct H| |reflexivity]. cbn [unlink_all]. apply IH. destruct H as [H|H]; [discriminate|auto]. }
  specialize (Q d d H). destruct (unlink_all d d) as [d' r]. exact Q.
Qed.
End P.

Lemma other_url : exists (u1 u2 : string) (c1 c2 : string), u1 <> u2 /\ c1 <> c2 /\
  let s := tf_run [(u1, false, Complete c1)] None in
  forall n, let '(s', r, b) := download_and_cache u2 false (Complete c2) s in
    b = false /\ r = Ok "model.h5" /\ cached_file s' "model.h5" = Some c1 /\
    cached_file (tf_run (repeat (u2, false, Complete c2) n) s') "model.h5" = Some c1.
Proof.
  exists "https://a.org/v1/model.h5", "https://a.org/v2/model.h5", "one", "two". split; [discriminate|]. split; [discriminate|]. cbv zeta. intros n.
  assert (E : download_and_cache "https://a.org/v2/model.h5" false (Complete "two") (tf_run [("https://a.org/v1/model.h5", false, Complete "one")] None) =
    (Some [("model.h5", File "one")], Ok "model.h5", false)) by (vm_compute; reflexivity).
  rewrite E. repeat split; auto. induction n as [|n IH]; [reflexivity|]. cbn [repeat tf_run].
  assert (E2 : fst (fst (download_and_cache "https://a.org/v2/model.h5" false (Complete "two") (Some [("model.h5", File "one")]))) = Some [("model.h5", File "one")]) by (vm_compute; reflexivity).
  rewrite E2. exact IH.
Qed.
Lemma not_permitted {T : Type} auto (w : world T) : ~ permitted auto w -> w_first w = NotFound -> get_tf auto w None = (None, Err ImportError, [Import]).
Proof. intros P N. destruct (ensure_spec auto w) as (_ & _ & _ & E). unfold get_tf. rewrite E by auto. reflexivity. Qed.

(** ** what is loaded *)
Lemma load_spec {C M : Type} (jit : C -> option M) file : loads jit file (load_model jit file).
Proof.
  unfold loads, load_model. destruct file as [c|].
  - destruct (jit c) as [m|] eqn:E; split; try discriminate; try congruence.
    + intros m'. split; [intros H; injection H as <-; eauto|intros (c' & H & K); congruence].
    + intros m'. split; [discriminate|intros (c' & H & K); congruence].
  - split; [|congruence]. intros m. split; [discriminate|intros (c' & H & _); discriminate].
Qed.
Lemma get_url {C M : Type} (jit : C -> option M) disk md5 url f tr (s : store C) : is_http url ->
  let '(s', r, _) := download_and_cache_model md5 url f tr s in
  let '(s2, m) := get_model jit disk md5 url f tr s in
  s2 = s' /\ (forall name, r = Ok name -> loads jit (cached_file s' name) m) /\ (forall e, r = Err e -> m = Err e).
Proof.
  intros H. rewrite (dispatch_url jit disk md5 url f tr s H). destruct (download_and_cache_model md5 url f tr s) as [[s' r] b].
  split; auto. split; [intros name ->; apply load_spec|intros e ->; auto].
Qed.
Lemma get_local {C M : Type} (jit : C -> option M) disk md5 p f tr (s : store C) : ~ is_http p -> ends_with p ".pt" \/ has_slash p ->
  exists r, get_model jit disk md5 p f tr s = (s, r) /\ loads jit (disk p) r.
Proof. intros N H. rewrite (dispatch_local jit disk md5 p f tr s N H). eexists. split; [reflexivity|apply load_spec]. Qed.

(** ** local files of the TensorFlow model *)
Lemma resolve_local {C : Type} (s : store C) json weights f tr1 tr2 : ~ is_http json ->
  let '(s', r, (b1, b2)) := resolve_model_paths json weights f tr1 tr2 s in
  b1 = false /\ (forall l1 l2, r = Ok (l1, l2) -> l1 = AtPath json) /\
  (~ is_http weights -> b2 = false /\ r = Ok (AtPath json, AtPath weights) /\ forall n, cached_file s' n = cached_file s n).
Proof.
  intros N. unfold resolve_model_paths, resolve_one. rewrite <- is_url_spec in N. apply not_true_is_false in N. rewrite N.
  destruct (is_url weights) eqn:W.
  - destruct (download_and_cache weights f tr2 (Some (mkdir s))) as [[s1 r1] b1]. split; auto. split.
    + intros l1 l2 H. destruct r1; cbn in H; [injection H as <- _; auto|discriminate].
    + intros K. exfalso. apply K. apply is_url_spec. exact W.
  - split; auto. split; [cbn; intros l1 l2 H; injection H as <- _; auto|]. intros _. split; auto. split; auto. intros n. destruct s; reflexivity.
Qed.
Lemma resolve_local_weights {C : Type} (s : store C) json weights f tr1 tr2 : ~ is_http weights ->
  let '(s', r, (b1, b2)) := resolve_model_paths json weights f tr1 tr2 s in
  b2 = false /\ forall l1 l2, r = Ok (l1, l2) -> l2 = AtPath weights.
Proof.
  intros N. unfold resolve_model_paths. destruct (resolve_one json f tr1 (Some (mkdir s))) as [[s1 r1] b1]. destruct r1 as [l1|e].
  - unfold resolve_one. rewrite <- is_url_spec in N. apply not_true_is_false in N. rewrite N. split; auto.
    cbn. intros l l2 H. injection H as _ <-. auto.
  - split; auto. discriminate.
Qed.
