(** * What the caches do over a history of calls *)
From Coq Require Import List Bool String Ascii.
From Verif Require Import Base Cache_model.
Import ListNotations.
Local Open Scope nat_scope.
Local Open Scope string_scope.

(** the part of a URL after its last slash *)
Definition no_slash (s : string) : Prop := forall i, String.get i s <> Some "/"%char.
Definition last_component (url c : string) : Prop := no_slash c /\ (c = url \/ exists p, url = p ++ "/" ++ c).
(** not a name for the cache directory or its parent *)
Definition regular (name : string) : Prop := name <> "" /\ name <> "." /\ name <> "..".

Section Spec.
Context {C : Type}.
Implicit Types (h : list (option (string * bool * transfer C))) (name : string) (v : C).
(** a history: requests for a file name (forced or not, and what the network
    would do), or clearing the cache ([None]) *)
Definition connects (tr : transfer C) : Prop := tr <> NoConnection.
(** what a transfer leaves on disk *)
Definition leaves (tr : transfer C) (v : C) : Prop := tr = Interrupted v \/ tr = Complete v.

(** some request since the last clearing reached the server *)
Definition cached h name : Prop := exists i f tr, nth_error h i = Some (Some (name, f, tr)) /\ connects tr /\
  forall k, i < k -> nth_error h k <> Some None.
(** [v] was left by request [i], which downloaded because it was forced or the
    first to get through, and there was neither a clearing nor a successful
    forced request since *)
Definition stored h name v : Prop := exists i f tr, nth_error h i = Some (Some (name, f, tr)) /\ leaves tr v /\
  (f = true \/ ~ cached (firstn i h) name) /\
  forall k, i < k -> nth_error h k <> Some None /\ forall tr', nth_error h k = Some (Some (name, true, tr')) -> ~ connects tr'.
End Spec.

(** ** histories of calls of the two caches, starting without a cache directory *)
Section Runs.
Context {C : Type}.
Fixpoint tf_run (h : list (string * bool * transfer C)) (s : store C) : store C :=
  match h with [] => s | (u, f, tr) :: h => tf_run h (fst (fst (download_and_cache u f tr s))) end.
Definition tf_name (url : string) : string := last (split_slash url) "".
Definition tf_history (h : list (string * bool * transfer C)) := map (fun '(u, f, tr) => Some (tf_name u, f, tr)) h.

Fixpoint torch_run (md5 : string -> string) (h : list (option (string * bool * transfer C))) (s : store C) : store C :=
  match h with
  | [] => s
  | Some (u, f, tr) :: h => torch_run md5 h (fst (fst (download_and_cache_model md5 u f tr s)))
  | None :: h => torch_run md5 h (fst (clear_model_cache s))
  end.
Definition torch_history (md5 : string -> string) (h : list (option (string * bool * transfer C))) :=
  map (option_map (fun '(u, f, tr) => (model_filename md5 u, f, tr))) h.
Definition asks (name : string) (e : option (string * bool * transfer C)) : Prop := exists f tr, e = Some (name, f, tr).
(** no download was cut short *)
Definition no_interruption (h : list (option (string * bool * transfer C))) : Prop := forall n f p, ~ In (Some (n, f, Interrupted p)) h.
End Runs.

(** ** TensorFlow *)
Section Tf.
Context {T : Type}.
(** this call may install *)
Definition permitted (auto : bool) (w : world T) : Prop := auto = true \/ w_env w = Some "1".
(** this call would get hold of the module [m] *)
Definition obtains (auto : bool) (w : world T) (m : T) : Prop :=
  w_first w = Imported m \/ (w_first w = NotFound /\ permitted auto w /\ w_pip w = true /\ w_second w = Imported m).
End Tf.

Definition is_http (s : string) : Prop := exists r, s = "http://" ++ r \/ s = "https://" ++ r.
Definition ends_with (s suf : string) : Prop := exists p, s = p ++ suf.
Definition has_slash (s : string) : Prop := exists p q, s = p ++ "/" ++ q.

(** [r] is the outcome of loading a file: its model, or a RuntimeError if there
    is no such file or it holds no model *)
Definition loads {C M : Type} (jit : C -> option M) (file : option C) (r : res M) : Prop :=
  (forall m, r = Ok m <-> exists c, file = Some c /\ jit c = Some m) /\ forall e, r = Err e -> e = RuntimeError.
