(** * Properties C65, C66, C70-C72, C80: model caches and lazy TensorFlow *)
From Coq Require Import List Bool String Ascii Lia.
From Verif Require Import Base Cache_model Cache_spec Cache_proofs Cache_proofs2 Cache_proofs3 Cache_proofs4.
Import ListNotations.
Local Open Scope nat_scope.
Local Open Scope string_scope.

(** ** C65 *)
Theorem C65_file_name_is_last_component : forall url c, last_component url c <-> c = tf_name url.
Proof. exact tf_name_iff. Qed.
Print Assumptions C65_file_name_is_last_component.

Theorem C65_content_of_last_download : forall (C : Type) (h : list (string * bool * transfer C)) name v, regular name ->
  (cached_file (tf_run h None) name = Some v <-> stored (tf_history h) name v).
Proof. exact @tf_content. Qed.
Print Assumptions C65_content_of_last_download.

Theorem C65_when_it_downloads : forall (C : Type) (h : list (string * bool * transfer C)) url f tr, regular (tf_name url) ->
  let '(s', r, b) := download_and_cache url f tr (tf_run h None) in
  (b = true <-> f = true \/ ~ cached (tf_history h) (tf_name url)) /\
  (r = Ok (tf_name url) /\ cached_file s' (tf_name url) <> None <-> (b = false \/ exists c, tr = Complete c)) /\ (forall e, r = Err e -> e = OtherError) /\
  (b = false -> cached_file s' (tf_name url) = cached_file (tf_run h None) (tf_name url)).
Proof. exact @tf_request. Qed.
Print Assumptions C65_when_it_downloads.

(** what a cache is for is violated: the second URL's file is never fetched *)
Theorem C65_other_url_refuted : exists (u1 u2 : string) (c1 c2 : string), u1 <> u2 /\ c1 <> c2 /\
  let s := tf_run [(u1, false, Complete c1)] None in
  forall n, let '(s', r, b) := download_and_cache u2 false (Complete c2) s in
    b = false /\ r = Ok "model.h5" /\ cached_file s' "model.h5" = Some c1 /\
    cached_file (tf_run (repeat (u2, false, Complete c2) n) s') "model.h5" = Some c1.
Proof. exact other_url. Qed.
Print Assumptions C65_other_url_refuted.

Theorem C65_json_and_weights_with_one_name : forall (C : Type) (h : list (string * bool * transfer C)) json weights tr1 tr2 s' r b,
  is_http json -> is_http weights -> tf_name json = tf_name weights -> regular (tf_name json) ->
  resolve_model_paths json weights false tr1 tr2 (tf_run h None) = (s', r, b) ->
  snd b = false /\ forall l1 l2, r = Ok (l1, l2) -> l1 = l2.
Proof. exact @one_name. Qed.
Print Assumptions C65_json_and_weights_with_one_name.

Theorem C65_trailing_slash_is_a_directory : forall (C : Type) (h : list (string * bool * transfer C)) url f tr, ~ regular (tf_name url) ->
  let '(s', r, b) := download_and_cache url f tr (tf_run h None) in
  b = f /\ r = (if f then Err OtherError else Ok (tf_name url)) /\ forall n, cached_file s' n = cached_file (tf_run h None) n.
Proof. exact @tf_directory. Qed.
Print Assumptions C65_trailing_slash_is_a_directory.

(** local files are used as given, without a download *)
Theorem C65_local_files : forall (C : Type) (s : store C) json weights f tr1 tr2,
  let '(s', r, (b1, b2)) := resolve_model_paths json weights f tr1 tr2 s in
  (~ is_http json -> b1 = false /\ forall l1 l2, r = Ok (l1, l2) -> l1 = AtPath json) /\
  (~ is_http weights -> b2 = false /\ forall l1 l2, r = Ok (l1, l2) -> l2 = AtPath weights) /\
  (~ is_http json -> ~ is_http weights -> r = Ok (AtPath json, AtPath weights) /\ forall n, cached_file s' n = cached_file s n).
Proof.
  intros C s json weights f tr1 tr2. pose proof (resolve_local s json weights f tr1 tr2) as A. pose proof (resolve_local_weights s json weights f tr1 tr2) as B.
  destruct (resolve_model_paths json weights f tr1 tr2 s) as [[s' r] [b1 b2]]. split; [|split; [exact B|]].
  - intros N. destruct (A N) as (H1 & H2 & _). auto.
  - intros N W. destruct (A N) as (_ & _ & H). apply (H W).
Qed.
Print Assumptions C65_local_files.
Example C65_case_local : snd (fst (resolve_model_paths "net.json" "http://c.org/w.h5" false (Complete "A") (Complete "W") (None : store string))) =
  Ok (AtPath "net.json", InCache "w.h5").
Proof. reflexivity. Qed.

Definition demo_history : list (string * bool * transfer string) :=
  [("http://a.org/m/net.json", false, Complete "A"); ("http://b.org/net.json", false, Complete "B"); ("http://c.org/w.h5", false, NoConnection)].
Example C65_case : let s := tf_run demo_history None in cached_file s "net.json" = Some "A" /\ cached_file s "w.h5" = None /\
  cached_file (tf_run [("https://b.org/net.json", true, Complete "B")] s) "net.json" = Some "B" /\
  snd (fst (download_and_cache "http://a.org/m/" false (Complete "x") s)) = Ok "".
Proof. vm_compute. auto. Qed.

(** ** C66 *)
Theorem C66_tf_truncated_file_stays : forall (C : Type) (h k : list (string * bool * transfer C)) url f p,
  regular (tf_name url) -> (f = true \/ ~ cached (tf_history h) (tf_name url)) ->
  (forall u f' tr, In (u, f', tr) k -> tf_name u = tf_name url -> f' = false) ->
  cached_file (tf_run (h ++ (url, f, Interrupted p) :: k)%list None) (tf_name url) = Some p.
Proof. exact @tf_truncated. Qed.
Print Assumptions C66_tf_truncated_file_stays.

Theorem C66_torch_truncated_file_stays : forall (C : Type) md5 (h k : list (option (string * bool * transfer C))) url f p,
  (f = true \/ ~ cached (torch_history md5 h) (model_filename md5 url)) ->
  (forall e, In e k -> e <> None /\ forall u tr, md5 u = md5 url -> e <> Some (u, true, tr)) ->
  cached_file (torch_run md5 (h ++ Some (url, f, Interrupted p) :: k)%list None) (model_filename md5 url) = Some p.
Proof. exact @torch_truncated. Qed.
Print Assumptions C66_torch_truncated_file_stays.

Theorem C66_torch_model_unusable_until_forced : forall (C M : Type) (jit : C -> option M) (disk : string -> option C) md5 h url f p k tr,
  is_http url -> (f = true \/ ~ cached (torch_history md5 h) (model_filename md5 url)) ->
  (forall e, In e k -> e <> None /\ forall u tr, md5 u = md5 url -> e <> Some (u, true, tr)) -> jit p = None ->
  snd (get_model jit disk md5 url false tr (torch_run md5 (h ++ Some (url, f, Interrupted p) :: k)%list None)) = Err RuntimeError.
Proof. exact @truncated_model_fails. Qed.
Print Assumptions C66_torch_model_unusable_until_forced.

Theorem C66_tf_without_crash_complete : forall (C : Type) (h : list (string * bool * transfer C)) name v,
  regular name -> (forall u f p, ~ In (u, f, Interrupted p) h) ->
  cached_file (tf_run h None) name = Some v -> exists u f, In (u, f, Complete v) h /\ tf_name u = name.
Proof. exact @tf_complete. Qed.
Print Assumptions C66_tf_without_crash_complete.

Theorem C66_torch_without_crash_complete : forall (C : Type) md5 (h : list (option (string * bool * transfer C))) url v,
  (forall u f p, ~ In (Some (u, f, Interrupted p)) h) ->
  cached_file (torch_run md5 h None) (model_filename md5 url) = Some v -> exists u f, In (Some (u, f, Complete v)) h /\ md5 u = md5 url.
Proof. exact @torch_complete. Qed.
Print Assumptions C66_torch_without_crash_complete.

Definition demo_md5 (s : string) : string := s.
Definition demo_jit (c : string) : option string := if c =? "weights" then Some c else None.
Example C66_case : let h := [Some ("http://x/m", false, Interrupted "wei"); Some ("http://x/m", false, Complete "weights")] in
  let s := torch_run demo_md5 h None in
  cached_file s "model_http://x/m.pt" = Some "wei" /\
  snd (get_model demo_jit (fun _ => None) demo_md5 "http://x/m" false (Complete "weights") s) = Err RuntimeError /\
  snd (get_model demo_jit (fun _ => None) demo_md5 "http://x/m" true (Complete "weights") s) = Ok "weights".
Proof. vm_compute. auto. Qed.

(** ** C70 *)
Theorem C70_default_listing_misses_models : forall (C : Type) (s : store C) md5,
  exists l, list_cached_models ".pt" s = Ok l /\ (forall n, In n l -> n = ".pt") /\ forall url, ~ In (model_filename md5 url) l.
Proof. exact @default_listing. Qed.
Print Assumptions C70_default_listing_misses_models.

Theorem C70_star_listing_finds_them : forall (C : Type) (d : dir C),
  exists l, list_cached_models "*.pt" (Some d) = Ok l /\ forall n, In n l <-> In n (map fst d) /\ ends_with n ".pt".
Proof. exact @star_listing. Qed.
Print Assumptions C70_star_listing_finds_them.

(** the documented purpose, "list all cached models", fails after any download *)
Theorem C70_list_cached_models_refuted : forall (C : Type) md5 url (c : C),
  let s := torch_run md5 [Some (url, false, Complete c)] None in
  cached_file s (model_filename md5 url) = Some c /\ list_cached_models ".pt" s = Ok [].
Proof. exact @listing_refuted. Qed.
Print Assumptions C70_list_cached_models_refuted.
(** an empty suffix raises if the cache directory exists and lists nothing if not *)
Theorem C70_empty_suffix : forall (C : Type) (s : store C), list_cached_models "" s = match s with Some _ => Err ValueError | None => Ok [] end.
Proof. intros C [d|]; reflexivity. Qed.
Print Assumptions C70_empty_suffix.

(** A question mark stands for exactly one character. *)
Theorem C70_question_mark : forall s, glob_match "?" s = true <-> exists c, s = String c "".
Proof.
  intros [|c [|c' s]]; split; try discriminate; [intros [c [=]] | intros _; exists c; reflexivity | reflexivity | intros [x [=]]].
Qed.
Print Assumptions C70_question_mark.

Theorem C70_question_mark_then : forall p s, glob_match (String "?" p) s = true <-> exists c s', s = String c s' /\ glob_match p s' = true.
Proof.
  intros p [|c s]; split; try discriminate; [intros (c & s' & [=] & _) | intros H; exists c, s; auto | intros (c' & s' & [= <- <-] & H); exact H].
Qed.
Print Assumptions C70_question_mark_then.
Example C70_case : let s := torch_run demo_md5 [Some ("u", false, Complete "A"); Some ("v", false, Complete "B")] None in
  list_cached_models ".pt" s = Ok [] /\ list_cached_models "*.pt" s = Ok ["model_v.pt"; "model_u.pt"] /\ list_cached_models "model_?.pt" s = Ok ["model_v.pt"; "model_u.pt"].
Proof. vm_compute. auto. Qed.

(** ** C71 *)
Theorem C71_urls_go_through_the_cache : forall (C M : Type) (jit : C -> option M) (disk : string -> option C) md5 url f tr (s : store C), is_http url ->
  let '(s', r, _) := download_and_cache_model md5 url f tr s in
  let '(s2, m) := get_model jit disk md5 url f tr s in
  s2 = s' /\ (forall name, r = Ok name -> loads jit (cached_file s' name) m) /\ (forall e, r = Err e -> m = Err e).
Proof. exact @get_url. Qed.
Print Assumptions C71_urls_go_through_the_cache.

Theorem C71_local_paths : forall (C M : Type) (jit : C -> option M) (disk : string -> option C) md5 p f tr (s : store C),
  ~ is_http p -> ends_with p ".pt" \/ has_slash p -> exists r, get_model jit disk md5 p f tr s = (s, r) /\ loads jit (disk p) r.
Proof. exact @get_local. Qed.
Print Assumptions C71_local_paths.

Theorem C71_others_rejected : forall (C M : Type) (jit : C -> option M) (disk : string -> option C) md5 p f tr (s : store C),
  ~ is_http p -> ~ ends_with p ".pt" -> ~ has_slash p -> get_model jit disk md5 p f tr s = (s, Err OtherError).
Proof. exact @dispatch_other. Qed.
Print Assumptions C71_others_rejected.

Example C71_case : let g p := snd (get_model demo_jit (fun p => if p =? "dir/net.pth" then Some "weights" else None) demo_md5 p false (Complete "weights") None) in
  g "dir/net.pth" = Ok "weights" /\ g "net.pth" = Err OtherError /\ g "net.pt" = Err RuntimeError /\ g "https://h/net.pth" = Ok "weights" /\ g "ftp://h/net" = Err RuntimeError.
Proof. vm_compute. auto 6. Qed.

(** ** C72 *)
Theorem C72_content_of_last_download : forall (C : Type) md5 (h : list (option (string * bool * transfer C))) url v,
  cached_file (torch_run md5 h None) (model_filename md5 url) = Some v <-> stored (torch_history md5 h) (model_filename md5 url) v.
Proof. exact @torch_content. Qed.
Print Assumptions C72_content_of_last_download.

Theorem C72_when_it_downloads : forall (C : Type) md5 (h : list (option (string * bool * transfer C))) url f tr,
  let '(s', r, b) := download_and_cache_model md5 url f tr (torch_run md5 h None) in
  (b = true <-> f = true \/ ~ cached (torch_history md5 h) (model_filename md5 url)) /\
  (r = Ok (model_filename md5 url) /\ cached_file s' (model_filename md5 url) <> None <-> (b = false \/ exists c, tr = Complete c)) /\ (forall e, r = Err e -> e = OtherError) /\
  (b = false -> cached_file s' (model_filename md5 url) = cached_file (torch_run md5 h None) (model_filename md5 url)).
Proof. exact @torch_request. Qed.
Print Assumptions C72_when_it_downloads.

Theorem C72_clearing_forces_download : forall (C : Type) md5 (h : list (option (string * bool * transfer C))) url tr,
  snd (clear_model_cache (torch_run md5 h None)) = Ok tt /\ (forall n, cached_file (fst (clear_model_cache (torch_run md5 h None))) n = None) /\
  snd (download_and_cache_model md5 url false tr (torch_run md5 (h ++ [None])%list None)) = true.
Proof. exact @clear_then_download. Qed.
Print Assumptions C72_clearing_forces_download.

Theorem C72_second_call_does_not_download : forall (C : Type) md5 (h : list (option (string * bool * transfer C))) url f tr f' tr' name,
  snd (fst (download_and_cache_model md5 url f tr (torch_run md5 h None))) = Ok name ->
  snd (download_and_cache_model md5 url f' tr' (torch_run md5 (h ++ [Some (url, f, tr)])%list None)) = f'.
Proof. exact @second_call. Qed.
Print Assumptions C72_second_call_does_not_download.

(** a subdirectory makes clearing fail *)
Theorem C72_subdirectory_stops_clearing : forall (C : Type) (d : dir C), In Dir (map snd d) -> snd (clear_model_cache (Some d)) = Err OtherError.
Proof. exact @clear_fails. Qed.
Print Assumptions C72_subdirectory_stops_clearing.

Example C72_case : let d h := snd (download_and_cache_model demo_md5 "u" false (Complete "B") (torch_run demo_md5 h None)) in
  let g := Some ("u", false, Complete "A") in
  d [] = true /\ d [g] = false /\ d [g; None] = true /\ d [g; None; g; Some ("v", true, Complete "C")] = false /\ d [Some ("u", true, NoConnection)] = true.
Proof. vm_compute. auto 6. Qed.
Example C72_case_subdirectory : clear_model_cache (Some [("a", File "A"); ("sub", Dir); ("b", File "B")]) = (Some [("sub", Dir); ("b", File "B")], Err OtherError).
Proof. vm_compute. reflexivity. Qed.

(** ** C80 *)
Theorem C80_imported_at_most_once : forall (T : Type) (h1 h2 : list (bool * world T)) a w m,
  (forall a w m, In (a, w) h1 -> ~ obtains a w m) -> obtains a w m ->
  exists pre ev, calls (h1 ++ (a, w) :: h2)%list None = (pre ++ (if w_devices w then Ok m else Err OtherError, ev) :: map (fun _ => (Ok m, [])) h2)%list /\
  List.length pre = List.length h1 /\ forall r ev, In (r, ev) pre -> r = Err ImportError \/ r = Err OtherError.
Proof. exact @calls_history. Qed.
Print Assumptions C80_imported_at_most_once.

Theorem C80_installs_only_if_permitted : forall (T : Type) (h : list (bool * world T)) i r ev pkg,
  nth_error (calls h None) i = Some (r, ev) -> In (Pip pkg) ev ->
  exists a w, nth_error h i = Some (a, w) /\ permitted a w /\ w_first w = NotFound /\ pkg = if w_gpu w then "tensorflow[and-cuda]" else "tensorflow".
Proof. exact @installs_only_if_permitted. Qed.
Print Assumptions C80_installs_only_if_permitted.

Theorem C80_not_permitted : forall (T : Type) auto (w : world T), ~ permitted auto w -> w_first w = NotFound -> get_tf auto w None = (None, Err ImportError, [Import]).
Proof. exact @not_permitted. Qed.
Print Assumptions C80_not_permitted.

Definition demo_world (found gpu : bool) (env : option string) : world nat :=
  {| w_first := if found then Imported 5 else NotFound; w_gpu := gpu; w_env := env; w_pip := true; w_second := Imported 7; w_devices := true |}.
Example C80_case : calls [(false, demo_world false true (Some "0")); (false, demo_world false true (Some "1")); (true, demo_world true false None); (true, demo_world false false None)] None =
  [(Err ImportError, [Import]); (Ok 7, [Import; Pip "tensorflow[and-cuda]"; Import]); (Ok 7, []); (Ok 7, [])].
Proof. vm_compute. reflexivity. Qed.
