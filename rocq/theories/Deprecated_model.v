(** * Model of /repo/pycomlink/util/maintenance.py and of warnings.warn_explicit as
    it is called there (no module, no registry)

    A Python function is [A -> state -> res V * state]: it takes its arguments
    (positional and keyword together) and may change the interpreter state, whether
    it returns or raises.  The part of the state the decorator touches is the list
    of warnings shown so far and the once-registry of the warnings module.
    Simplified: filters are resolved by an oracle ([filter_action]); the raised
    warning is the exception [OtherError]; copying __name__, __doc__, ... with
    functools.wraps is left out. *)
From Coq Require Import List String Bool ZArith.
From Verif Require Import Base.
Import ListNotations.
Local Open Scope string_scope.

Record warning := { w_message : string; w_filename : string; w_lineno : Z }.
Inductive action := AError | AIgnore | AAlways | ADefault | AModule | AOnce.

Section Deprecated.
Context {W A V : Type}.

Record state := { world : W; shown : list warning; once : list string }.

(** CPython warnings.warn_explicit with registry=None: a fresh registry is used, so
    "default" and "module" never find an earlier entry *)
Definition warn_explicit (filter_action : warning -> action) (w : warning) (st : state) : res unit * state :=
  let show st := {| world := world st; shown := (shown st ++ [w])%list; once := once st |} in
  match filter_action w with
  | AError => (Err OtherError, st)
  | AIgnore => (Ok tt, st)
  | AAlways | ADefault | AModule => (Ok tt, show st)
  | AOnce =>
      if existsb (String.eqb (w_message w)) (once st) then (Ok tt, st)
      else (Ok tt, show {| world := world st; shown := shown st; once := w_message w :: once st |})
  end.

(** a callable, whose __name__ may be missing (functools.partial objects) *)
Record callable := { c_name : option string; c_call : A -> state -> res V * state }.

(** maintenance.py:10-46; [frame] is the caller's file and line, None if there is no
    Python frame below *)
Definition deprecated (filter_action : warning -> action) (instructions : string) (func : callable)
    (frame : option (string * Z)) (args : A) (st : state) : res V * state :=
  match c_name func with
  | None => (Err AttributeError, st)
  | Some name =>
      let message := "Call to deprecated function " ++ name ++ ". " ++ instructions in
      match frame with
      | None => (Err AttributeError, st)
      | Some (file, line) =>
          match warn_explicit filter_action {| w_message := message; w_filename := file; w_lineno := line |} st with
          | (Err e, st) => (Err e, st)
          | (Ok _, st) => c_call func args st
          end
      end
  end.

(** a list of calls, stopping at the first exception (the caller's loop) *)
Fixpoint calls (f : option (string * Z) -> A -> state -> res V * state) (l : list (option (string * Z) * A)) (st : state) : res (list V) * state :=
  match l with
  | [] => (Ok [], st)
  | (fr, a) :: l =>
      match f fr a st with
      | (Err e, st) => (Err e, st)
      | (Ok v, st) => match calls f l st with (Ok vs, st) => (Ok (v :: vs), st) | (Err e, st) => (Err e, st) end
      end
  end.
End Deprecated.
Arguments state : clear implicits.
Arguments callable : clear implicits.
