(** * Proofs about listing, dispatch and lazy loading *)
From Coq Require Import List Bool String Ascii Lia Arith.
From Verif Require Import Base Cache_model Cache_spec Cache_proofs Cache_proofs2.
Import ListNotations.
Local Open Scope nat_scope.
Local Open Scope string_scope.

(** ** string tests *)
Lemma prefix_app p : forall s, prefix p s = true <-> exists r, s = p ++ r.
Proof.
  induction p as [|c p IH]; intros s; [destruct s; (split; [intros _; eexists; reflexivity|auto])|]. destruct s as [|d s]; cbn; [split; [discriminate|intros [r E]; discriminate]|].
  destruct (ascii_dec c d) as [->|N]; [|split; [discriminate|intros [r E]; congruence]]. rewrite IH. split; intros [r E]; exists r; congruence.
Qed.
Lemma append_assoc' a b c : (a ++ b) ++ c = a ++ (b ++ c).
Proof. induction a; cbn; congruence. Qed.
Lemma length_append a b : String.length (a ++ b) = String.length a + String.length b.
Proof. induction a; cbn; auto. Qed.
Lemma append_empty a : a ++ "" = a. Proof. induction a; cbn; congruence. Qed.
Lemma substring_all s : substring 0 (String.length s) s = s.
Proof. induction s; cbn; congruence. Qed.
Lemma substring_suffix p s : substring (String.length p) (String.length s) (p ++ s) = s.
Proof. induction p; cbn; auto. apply substring_all. Qed.
Lemma substring_split s : forall n, n <= String.length s -> s = substring 0 n s ++ substring n (String.length s - n) s.
Proof.
  induction s as [|c s IH]; intros [|n] H; cbn in *; auto; try lia.
  - f_equal. rewrite substring_all. reflexivity.
  - f_equal. apply IH. lia.
Qed.
Lemma endswith_spec s suf : endswith s suf = true <-> ends_with s suf.
Proof.
  unfold endswith, ends_with. rewrite andb_true_iff, Nat.leb_le, String.eqb_eq. split.
  - intros [L E]. exists (substring 0 (String.length s - String.length suf) s).
    pose proof (substring_split s (String.length s - String.length suf)) as Q. replace (String.length s - (String.length s - String.length suf)) with (String.length suf) in Q by lia.
    rewrite E in Q. apply Q. lia.
  - intros [p ->]. rewrite length_append. split; [lia|]. replace (String.length p + String.length suf - String.length suf) with (String.length p) by lia. apply substring_suffix.
Qed.
Lemma contains_spec s : contains_slash s = true <-> has_slash s.
Proof.
  unfold has_slash. induction s as [|c s IH]; cbn; [split; [discriminate|intros (p & q & E); destruct p; discriminate]|].
  rewrite orb_true_iff, Ascii.eqb_eq, IH. split.
  - intros [->|(p & q & ->)]; [exists "", s; auto|exists (String c p), q; auto].
  - intros ([|d p] & q & E); cbn in E; [left; congruence|right; injection E as _ E; exists p, q; exact E].
Qed.
Lemma http_spec s : startswith s "http://" || startswith s "https://" = true <-> is_http s.
Proof.
  unfold startswith, is_http. rewrite orb_true_iff, !prefix_app. split; [intros [[r E]|[r E]]; exists r; auto|intros [r [E|E]]; [left|right]; exists r; auto].
Qed.

(** ** listing *)
Definition wildcard (c : ascii) := c = "*"%char \/ c = "?"%char.
Lemma glob_literal pat : (forall i c, String.get i pat = Some c -> ~ wildcard c) -> forall s, glob_match pat s = (pat =? s).
Proof.
  induction pat as [|p pat IH]; intros H s; cbn.
  - destruct s; reflexivity.
  - pose proof (H 0 p eq_refl) as W. destruct (Ascii.eqb_spec p "*"); [exfalso; apply W; left; auto|]. destruct (Ascii.eqb_spec p "?"); [exfalso; apply W; right; auto|].
    destruct s as [|c s]; [reflexivity|]. rewrite IH by (intros i; apply (H (Datatypes.S i))). destruct (Ascii.eqb p c); reflexivity.
Qed.
Lemma glob_star pat s : glob_match (String "*" pat) s = true <-> exists a b, s = a ++ b /\ glob_match pat b = true.
Proof.
  cbn. induction s as [|c s IH].
  - rewrite orb_false_r. split; [intros H; exists "", ""; auto|]. intros (a & b & E & H). destruct a; [|discriminate]. destruct b; [auto|discriminate].
  - rewrite orb_true_iff, IH. split.
    + intros [H|(a & b & -> & H)]; [exists "", (String c s); auto|exists (String c a), b; auto].
    + intros ([|d a] & b & E & H); cbn in E; [left; subst b; auto|right; injection E as -> E; exists a, b; auto].
Qed.
Lemma no_wild_pt : forall i c, String.get i ".pt" = Some c -> ~ wildcard c.
Proof. intros [|[|[|i]]] c E; cbn in E; try discriminate; injection E as <-; intros [W|W]; discriminate. Qed.

Section L.
Context {C : Type}.
Lemma default_listing (s : store C) md5 : exists l, list_cached_models ".pt" s = Ok l /\ (forall n, In n l -> n = ".pt") /\ forall url, ~ In (model_filename md5 url) l.
Proof.
  assert (Q : forall l, (forall n : string, In n l -> n = ".pt") -> forall url, ~ In (model_filename md5 url) l) by (intros l H url Hin; apply H in Hin; discriminate).
  destruct s as [d|]; cbn; eexists; (split; [reflexivity|]); (split; [|apply Q]).
  - intros n Hn. apply filter_In in Hn. destruct Hn as [_ Hn]. change (glob_match ".pt" n = true) in Hn. rewrite glob_literal in Hn by apply no_wild_pt. apply String.eqb_eq in Hn. auto.
  - intros n Hn. apply filter_In in Hn. destruct Hn as [_ Hn]. change (glob_match ".pt" n = true) in Hn. rewrite glob_literal in Hn by apply no_wild_pt. apply String.eqb_eq in Hn. auto.
  - intros n [].
  - intros n [].
Qed.
Lemma star_listing (d : dir C) : exists l, list_cached_models "*.pt" (Some d) = Ok l /\ forall n, In n l <-> In n (map fst d) /\ ends_with n ".pt".
Proof.
  eexists. split; [reflexivity|]. intros n. rewrite filter_In, glob_star. split; intros [H1 H2]; split; auto.
  - destruct H2 as (a & b & -> & H). rewrite glob_literal in H by apply no_wild_pt. apply String.eqb_eq in H. subst b. exists a. auto.
  - destruct H2 as [a ->]. exists a, ".pt". split; auto.
Qed.

(** ** dispatch *)
Context {M : Type} (jit : C -> option M) (disk : string -> option C) (md5 : string -> string).
Lemma dispatch_url url f tr (s : store C) : is_http url ->
  get_model jit disk md5 url f tr s = (let '(s', r, _) := download_and_cache_model md5 url f tr s in
    (s', match r with Ok name => load_model jit (cached_file s' name) | Err e => Err e end)).
Proof. intros H. unfold get_model. rewrite (proj2 (http_spec url) H). destruct (download_and_cache_model md5 url f tr s) as [[s' r] b]. destruct r; reflexivity. Qed.
Lemma dispatch_local p f tr (s : store C) : ~ is_http p -> ends_with p ".pt" \/ has_slash p -> get_model jit disk md5 p f tr s = (s, load_model jit (disk p)).
Proof.
  intros N H. unfold get_model. rewrite <- http_spec in N. apply not_true_is_false in N. rewrite N.
  rewrite <- endswith_spec, <- contains_spec, <- orb_true_iff in H. rewrite H. reflexivity.
Qed.
Lemma dispatch_other p f tr (s : store C) : ~ is_http p -> ~ ends_with p ".pt" -> ~ has_slash p -> get_model jit disk md5 p f tr s = (s, Err OtherError).
Proof.
  intros N H1 H2. unfold get_model. rewrite <- http_spec in N. apply not_true_is_false in N. rewrite N.
  rewrite <- endswith_spec in H1. rewrite <- contains_spec in H2. apply not_true_is_false in H1, H2. rewrite H1, H2. cbn [orb]. destruct (endswith p ".pth" || endswith p ".pt2"); reflexivity.
Qed.

(** a truncated model file fails until it is downloaded again *)
Lemma truncated_model_fails h url f p k tr : is_http url -> (f = true \/ ~ cached (torch_history md5 h) (model_filename md5 url)) ->
  (forall e, In e k -> e <> None /\ forall u tr, md5 u = md5 url -> e <> Some (u, true, tr)) -> jit p = None ->
  snd (get_model jit disk md5 url false tr (torch_run md5 (h ++ Some (url, f, Interrupted p) :: k)%list None)) = Err RuntimeError.
Proof.
  intros HU W K J. rewrite dispatch_url by auto. set (R := model_filename_regular md5 url). rewrite torch_run_gen, torch_fetch.
  assert (EH : torch_history md5 (h ++ Some (url, f, Interrupted p) :: k)%list = (torch_history md5 h ++ Some (model_filename md5 url, f, Interrupted p) :: torch_history md5 k)%list).
  { unfold torch_history. rewrite map_app. reflexivity. }
  rewrite EH.
  assert (T : cached_file (gen_run (torch_history md5 h ++ Some (model_filename md5 url, f, Interrupted p) :: torch_history md5 k)%list None) (model_filename md5 url) = Some p).
  { apply truncated_stays; auto. intros e He. unfold torch_history in He. apply in_map_iff in He. destruct He as (e0 & <- & He0). destruct (K e0 He0) as [K1 K2]. split.
    - destruct e0 as [[[? ?] ?]|]; [discriminate|congruence].
    - intros tr' E. destruct e0 as [[[u f0] tr0]|]; [|discriminate]. cbn in E. injection E as Eu -> ->. apply (K2 u tr'); auto.
      assert (CA : forall a b c : string, a ++ c = b ++ c -> a = b).
      { intros a b c. revert b. induction a as [|x a IH]; intros [|y b] Q; auto.
        - apply (f_equal String.length) in Q. cbn in Q. rewrite length_append in Q. lia.
        - apply (f_equal String.length) in Q. cbn in Q. rewrite length_append in Q. lia.
        - injection Q as -> Q. f_equal. auto. }
      apply (CA (md5 u) (md5 url) ".pt"). exact Eu. }
  set (hh := (torch_history md5 h ++ Some (model_filename md5 url, f, Interrupted p) :: torch_history md5 k)%list) in *.
  destruct (run_inv hh) as [G _]. pose proof (fetch_spec (model_filename md5 url) false tr _ G) as F. destruct (fetch _ false tr (gen_run hh None)) as [[s' r] b].
  destruct F as (_ & _ & Fr & _). destruct (Fr R) as (Eb & Ef & Er). unfold file in *. rewrite T in *. cbn in Eb. subst b. cbn [snd]. rewrite Er. unfold load_model. rewrite Ef, J. reflexivity.
Qed.
End L.

(** ** lazy TensorFlow *)
Section Tf.
Context {T : Type}.
Lemma obtains_dec auto (w : world T) : (exists m, obtains auto w m) \/ forall m, ~ obtains auto w m.
Proof.
  unfold obtains, permitted. destruct (w_first w) as [m| |]; [left; exists m; auto| |right; intros m [E|[E _]]; discriminate].
  destruct (w_second w) as [m| |]; [|right; intros m [E|(_ & _ & _ & E)]; discriminate|right; intros m [E|(_ & _ & _ & E)]; discriminate].
  destruct (w_pip w); [|right; intros m' [E|(_ & _ & E & _)]; discriminate].
  destruct auto; [left; exists m; auto 6|]. destruct (w_env w) as [e|]; [|right; intros m' [E|(_ & [E|E] & _)]; discriminate].
  destruct (string_dec e "1") as [->|N]; [left; exists m; auto 6|right; intros m' [E|(_ & [E|E] & _)]; congruence].
Qed.
Lemma permitted_bool auto (w : world T) : auto || match w_env w with Some e => e =? "1" | None => false end = true <-> permitted auto w.
Proof.
  unfold permitted. rewrite orb_true_iff. destruct (w_env w) as [e|]; [rewrite String.eqb_eq|]; intuition congruence.
Qed.
Lemma ensure_spec auto (w : world T) : 
  (forall m, obtains auto w m -> fst (ensure_tensorflow_installed auto w) = Ok m) /\
  ((forall m, ~ obtains auto w m) -> fst (ensure_tensorflow_installed auto w) = Err ImportError \/ fst (ensure_tensorflow_installed auto w) = Err OtherError) /\
  (forall pkg, In (Pip pkg) (snd (ensure_tensorflow_installed auto w)) -> permitted auto w /\ w_first w = NotFound /\ pkg = if w_gpu w then "tensorflow[and-cuda]" else "tensorflow") /\
  (~ permitted auto w -> w_first w = NotFound -> ensure_tensorflow_installed auto w = (Err ImportError, [Import])).
Proof.
  unfold ensure_tensorflow_installed, obtains. pose proof (permitted_bool auto w) as P. destruct (w_first w) as [m0| |]; cbn.
  - split; [intros m [E|[E _]]; congruence|]. split; [intros H; exfalso; apply (H m0); auto|]. split; [intros pkg [E|[]]; discriminate|discriminate].
  - destruct (auto || _) eqn:A; [pose proof (proj1 P eq_refl) as PP|assert (PP : ~ permitted auto w) by (rewrite <- P; discriminate)].
    + destruct (w_pip w); [destruct (w_second w) as [m0| |]|]; cbn; (split; [intros m [E|(_ & _ & E & E')]; congruence|]); (split; [auto|]).
      1: intros H; exfalso; apply (H m0); auto.
      all: split; [intros pkg H; repeat (destruct H as [H|H]; try discriminate; try (injection H as <-; auto)); destruct H|intros; contradiction].
    + cbn. split; [intros m [E|(_ & E & _)]; [discriminate|contradiction]|]. split; auto. split; [intros pkg [E|[]]; discriminate|auto].
  - cbn. split; [intros m [E|[E _]]; discriminate|]. split; auto. split; [intros pkg [E|[]]; discriminate|discriminate].
Qed.

Lemma calls_some m (h : list (bool * world T)) : calls h (Some m) = map (fun _ => (Ok m, [])) h.
Proof. induction h as [|[a w] h IH]; cbn; congruence. Qed.
Lemma calls_none (h : list (bool * world T)) : (forall a w m, In (a, w) h -> ~ obtains a w m) ->
  forall k, calls (h ++ k)%list None = (calls h None ++ calls k None)%list /\ (forall r ev, In (r, ev) (calls h None) -> r = Err ImportError \/ r = Err OtherError).
Proof.
  induction h as [|[a w] h IH]; intros H k; [split; [reflexivity|intros r ev []]|]. cbn [app calls]. unfold get_tf.
  destruct (ensure_spec a w) as (_ & E & _). specialize (E (fun m => H a w m (or_introl eq_refl))). destruct (ensure_tensorflow_installed a w) as [r ev]. cbn [fst] in E.
  destruct (IH (fun a w m Hin => H a w m (or_intror Hin)) k) as [I1 I2]. destruct r as [m|e]; [destruct E; discriminate|]. rewrite I1. split; [reflexivity|].
  intros r' ev' [Q|Q]; [injection Q as <- <-; auto|eapply I2; eauto].
Qed.
(** the calls up to the first that gets hold of the module fail, that one
    imports it, all later ones return it without any import or installation *)
Lemma calls_history (h1 h2 : list (bool * world T)) a w m : (forall a w m, In (a, w) h1 -> ~ obtains a w m) -> obtains a w m ->
  exists pre ev, calls (h1 ++ (a, w) :: h2)%list None = (pre ++ (if w_devices w then Ok m else Err OtherError, ev) :: map (fun _ => (Ok m, [])) h2)%list /\
  List.length pre = List.length h1 /\ forall r ev, In (r, ev) pre -> r = Err ImportError \/ r = Err OtherError.
Proof.
  intros H1 HO. destruct (calls_none h1 H1 ((a, w) :: h2)) as [E1 E2]. exists (calls h1 None), (snd (ensure_tensorflow_installed a w)). split; [|split].
  - rewrite E1. f_equal. cbn [calls]. unfold get_tf. destruct (ensure_spec a w) as (E & _). specialize (E m HO). destruct (ensure_tensorflow_installed a w) as [r ev]. cbn [fst] in E. subst r. cbn [snd].
    f_equal. apply calls_some.
  - clear. generalize (@None T). induction h1 as [|[a w] h IH]; intros tf; auto. cbn [calls]. destruct (get_tf a w tf) as [[tf' r] ev]. cbn. f_equal. apply IH.
  - exact E2.
Qed.
Lemma calls_nth (h : list (bool * world T)) : forall tf i r ev, nth_error (calls h tf) i = Some (r, ev) -> exists a w tf', nth_error h i = Some (a, w) /\ snd (fst (get_tf a w tf')) = r /\ snd (get_tf a w tf') = ev.
Proof.
  induction h as [|[a w] h IH]; intros tf [|i] r ev E; cbn in E; try discriminate.
  - destruct (get_tf a w tf) as [[tf' r'] ev'] eqn:G. injection E as <- <-. exists a, w, tf. rewrite G. auto.
  - destruct (get_tf a w tf) as [[tf' r'] ev']. destruct (IH tf' i r ev E) as (a' & w' & t' & H). exists a', w', t'. exact H.
Qed.
Lemma installs_only_if_permitted (h : list (bool * world T)) i r ev pkg : nth_error (calls h None) i = Some (r, ev) -> In (Pip pkg) ev ->
  exists a w, nth_error h i = Some (a, w) /\ permitted a w /\ w_first w = NotFound /\ pkg = if w_gpu w then "tensorflow[and-cuda]" else "tensorflow".
Proof.
  intros E H. destruct (calls_nth h None i r ev E) as (a & w & tf & E1 & _ & E3). exists a, w. split; auto. destruct (ensure_spec a w) as (_ & _ & P & _). apply P.
  unfold get_tf in E3. destruct tf; [cbn in E3; subst ev; destruct H|]. destruct (ensure_tensorflow_installed a w) as [[m|e] ev']; cbn in *; subst ev'; auto.
Qed.
End Tf.
