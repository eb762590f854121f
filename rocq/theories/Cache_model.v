(** * Model of the two download caches and of lazy TensorFlow loading
    /repo/pycomlink/processing/tensorflow_utils/{inference_utils,lazy_tf}.py and
    /repo/pycomlink/processing/pytorch_utils/inference_utils.py

    Oracles: [md5] is the hex digest of a URL, each download comes with what the
    network does ([transfer]), [jit] loads a model from a file's content, [disk]
    is the rest of the file system.  Simplified: one cache directory per cache,
    one process at a time, writing to the directory never fails, printing is
    ignored.  Not modelled: over-long file names, NUL characters in URLs. *)
From Coq Require Import List ZArith Bool String Ascii.
From Verif Require Import Base.
Import ListNotations.
Local Open Scope nat_scope.
Local Open Scope string_scope.

(** ** strings *)
(** [s.split("/")]; never empty *)
Fixpoint split_slash (s : string) : list string :=
  match s with
  | "" => [""]
  | String c r => let l := split_slash r in
                  if Ascii.eqb c "/" then "" :: l
                  else match l with h :: t => String c h :: t | [] => [String c ""] end
  end.
Definition startswith (s p : string) : bool := prefix p s.
Definition endswith (s p : string) : bool :=
  Nat.leb (String.length p) (String.length s) && (substring (String.length s - String.length p) (String.length p) s =? p).
Fixpoint contains_slash (s : string) : bool :=
  match s with "" => false | String c r => Ascii.eqb c "/" || contains_slash r end.

Section Cache.
Context {C : Type}.                       (* file contents *)

(** ** the cache directory *)
Inductive entry := File (c : C) | Dir.
Definition dir := list (string * entry).
Definition store := option dir.           (* None: the directory does not exist *)
Definition lookup (d : dir) (name : string) : option entry := option_map snd (find (fun p => fst p =? name) d).
Definition write (d : dir) (name : string) (c : C) : dir := (name, File c) :: filter (fun p => negb (fst p =? name)) d.
Definition mkdir (s : store) : dir := match s with Some d => d | None => [] end.
(** [cache_dir / name] is the directory itself or its parent *)
Definition dir_name (name : string) : bool := (name =? "") || (name =? ".") || (name =? "..").
Definition path_exists (d : dir) (name : string) : bool :=
  dir_name name || match lookup d name with Some _ => true | None => false end.

(** what the network does: no file is created before the connection stands;
    an interruption leaves what was written so far *)
Inductive transfer := NoConnection | Interrupted (part : C) | Complete (c : C).

(** urllib.request.urlretrieve(url, cache_dir / name) *)
Definition urlretrieve (d : dir) (name : string) (tr : transfer) : dir * res unit :=
  match tr with
  | NoConnection => (d, Err OtherError)
  | Interrupted p | Complete p =>
      match dir_name name, lookup d name with
      | true, _ | _, Some Dir => (d, Err OtherError)                    (* IsADirectoryError *)
      | _, _ => (write d name p, match tr with Complete _ => Ok tt | _ => Err OtherError end)
      end
  end.

(** tensorflow_utils/inference_utils.py:94-104 *)
Definition is_url (path : string) : bool := startswith path "http://" || startswith path "https://".

(** tensorflow_utils/inference_utils.py:107-130: new directory, name of the
    file returned, and whether the network was asked *)
Definition download_and_cache (url : string) (force : bool) (tr : transfer) (s : store) : store * res string * bool :=
  let d := mkdir s in
  let filename := last (split_slash url) "" in
  if negb (path_exists d filename) || force then
    let '(d, r) := urlretrieve d filename tr in
    (Some d, bind r (fun _ => Ok filename), true)
  else (Some d, Ok filename, false).

(** tensorflow_utils/inference_utils.py:133-162: a file of the cache or a path as given *)
Inductive location := InCache (name : string) | AtPath (p : string).
Definition resolve_one (source : string) (force : bool) (tr : transfer) (s : store) : store * res location * bool :=
  if is_url source then
    let '(s, r, b) := download_and_cache source force tr s in (s, bind r (fun n => Ok (InCache n)), b)
  else (s, Ok (AtPath source), false).
Definition resolve_model_paths (json weights : string) (force : bool) (tr1 tr2 : transfer) (s : store) : store * res (location * location) * (bool * bool) :=
  let s := Some (mkdir s) in
  let '(s, r1, b1) := resolve_one json force tr1 s in
  match r1 with
  | Err e => (s, Err e, (b1, false))
  | Ok l1 => let '(s, r2, b2) := resolve_one weights force tr2 s in
             (s, bind r2 (fun l2 => Ok (l1, l2)), (b1, b2))
  end.

(** pytorch_utils/inference_utils.py:60-63 *)
Definition model_filename (md5 : string -> string) (url : string) : string := "model_" ++ md5 url ++ ".pt".

(** pytorch_utils/inference_utils.py:45-74 *)
Definition download_and_cache_model (md5 : string -> string) (url : string) (force : bool) (tr : transfer) (s : store) : store * res string * bool :=
  let d := mkdir s in
  let filename := model_filename md5 url in
  if negb (path_exists d filename) || force then
    let '(d, r) := urlretrieve d filename tr in
    (Some d, bind r (fun _ => Ok filename), true)
  else (Some d, Ok filename, false).

(** pytorch_utils/inference_utils.py:77-90; [unlink] refuses directories, the
    files listed before one are gone by then *)
Fixpoint unlink_all (names : dir) (d : dir) : dir * res unit :=
  match names with
  | [] => (d, Ok tt)
  | (n, File _) :: r => unlink_all r (filter (fun p => negb (fst p =? n)) d)
  | (n, Dir) :: _ => (d, Err OtherError)
  end.
Definition clear_model_cache (s : store) : store * res unit :=
  match s with
  | None => (None, Ok tt)
  | Some d => let '(d, r) := unlink_all d d in (Some d, r)
  end.

(** [glob] inside one directory; [*] and [?] are wildcards.  Not modelled:
    character classes and patterns with path separators or dots only. *)
Fixpoint glob_match (pat : string) : string -> bool :=
  match pat with
  | "" => fun s => s =? ""
  | String p pat' =>
      let m := glob_match pat' in
      if Ascii.eqb p "*" then
        (fix star s := m s || match s with "" => false | String _ s' => star s' end)
      else if Ascii.eqb p "?" then fun s => match s with "" => false | String _ s' => m s' end
      else fun s => match s with "" => false | String c s' => Ascii.eqb p c && m s' end
  end.
Fixpoint contains_bracket (s : string) : bool :=
  match s with "" => false | String c r => Ascii.eqb c "[" || contains_bracket r end.

(** pytorch_utils/inference_utils.py:93-106 *)
Definition list_cached_models (suffix : string) (s : store) : res (list string) :=
  match s with
  | None => Ok []
  | Some d => if suffix =? "" then Err ValueError
              else if contains_slash suffix || contains_bracket suffix || dir_name suffix then Err NotImplementedError
              else Ok (filter (glob_match suffix) (map fst d))
  end.

(** ** loading *)
Context {M : Type} (jit : C -> option M) (disk : string -> option C) (md5 : string -> string).

(** pytorch_utils/pytorch_utils.py:80-104; a missing or unusable file is a RuntimeError *)
Definition load_model (file : option C) : res M :=
  match file with
  | Some c => match jit c with Some m => Ok m | None => Err RuntimeError end
  | None => Err RuntimeError
  end.
Definition cached_file (s : store) (name : string) : option C :=
  match s with Some d => match lookup d name with Some (File c) => Some c | _ => None end | None => None end.

(** pytorch_utils/inference_utils.py:109-160 *)
Definition get_model (path_or_url : string) (force : bool) (tr : transfer) (s : store) : store * res M :=
  if startswith path_or_url "http://" || startswith path_or_url "https://" then
    let '(s, r, _) := download_and_cache_model md5 path_or_url force tr s in
    (s, bind r (fun name => load_model (cached_file s name)))
  else if endswith path_or_url ".pt" || contains_slash path_or_url then (s, load_model (disk path_or_url))
  else if endswith path_or_url ".pth" || endswith path_or_url ".pt2" then (s, Err OtherError)
  else (s, Err OtherError).
End Cache.
Arguments entry : clear implicits.
Arguments dir : clear implicits.
Arguments store : clear implicits.
Arguments transfer : clear implicits.

(** ** lazy_tf.py *)
Section LazyTf.
Context {T : Type}.                       (* the tensorflow module *)

(** an import: the module, an ImportError, or another exception *)
Inductive import := Imported (m : T) | NotFound | Broken.
(** what one call meets: first import, nvidia-smi, ALLOW_TF_AUTOINSTALL, pip, second import, device listing *)
Record world := { w_first : import; w_gpu : bool; w_env : option string; w_pip : bool; w_second : import; w_devices : bool }.
Inductive event := Import | Pip (pkg : string).

(** lazy_tf.py:25-37 *)
Definition ensure_tensorflow_installed (auto : bool) (w : world) : res T * list event :=
  match w_first w with
  | Imported m => (Ok m, [Import])
  | Broken => (Err OtherError, [Import])
  | NotFound =>
      let pkg := if w_gpu w then "tensorflow[and-cuda]" else "tensorflow" in
      if auto || match w_env w with Some e => e =? "1" | None => false end then
        if w_pip w then
          match w_second w with
          | Imported m => (Ok m, [Import; Pip pkg; Import])
          | NotFound => (Err ImportError, [Import; Pip pkg; Import])
          | Broken => (Err OtherError, [Import; Pip pkg; Import])
          end
        else (Err OtherError, [Import; Pip pkg])
      else (Err ImportError, [Import])
  end.

(** lazy_tf.py:18-23 and 39-44; the global is set before the devices are listed *)
Definition get_tf (auto : bool) (w : world) (tf : option T) : option T * res T * list event :=
  match tf with
  | Some m => (tf, Ok m, [])
  | None =>
      match ensure_tensorflow_installed auto w with
      | (Ok m, ev) => (Some m, if w_devices w then Ok m else Err OtherError, ev)
      | (Err e, ev) => (None, Err e, ev)
      end
  end.
(** a history of calls: the results and events of each *)
Fixpoint calls (h : list (bool * world)) (tf : option T) : list (res T * list event) :=
  match h with
  | [] => []
  | (a, w) :: h => let '(tf, r, ev) := get_tf a w tf in (r, ev) :: calls h tf
  end.
End LazyTf.
Arguments import : clear implicits.
Arguments world : clear implicits.
