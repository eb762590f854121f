(** * Property C78: the deprecation decorator *)
From Coq Require Import List String Bool ZArith.
From Verif Require Import Base Deprecated_model Deprecated_spec Deprecated_proofs.
Import ListNotations.
Local Open Scope string_scope.

Theorem C78_transparent : forall (W A V : Type) (fa : warning -> action) ins (f : callable W A V) name file line a st,
  c_name f = Some name -> shows (fa (notice name ins file line)) ->
  exists st', one_more (notice name ins file line) st st' /\ once st' = once st /\ deprecated fa ins f (Some (file, line)) a st = c_call f a st'.
Proof. exact @deprecated_transparent. Qed.
Print Assumptions C78_transparent.

Theorem C78_ignored : forall (W A V : Type) (fa : warning -> action) ins (f : callable W A V) name file line a st,
  c_name f = Some name -> fa (notice name ins file line) = AIgnore -> deprecated fa ins f (Some (file, line)) a st = c_call f a st.
Proof. exact @deprecated_ignored. Qed.
Print Assumptions C78_ignored.

Theorem C78_error_filter : forall (W A V : Type) (fa : warning -> action) ins (f : callable W A V) name file line a st,
  c_name f = Some name -> fa (notice name ins file line) = AError -> deprecated fa ins f (Some (file, line)) a st = (Err OtherError, st).
Proof. exact @deprecated_error. Qed.
Print Assumptions C78_error_filter.

Theorem C78_unnamed : forall (W A V : Type) (fa : warning -> action) ins (f : callable W A V) frame a st,
  c_name f = None \/ frame = None -> deprecated fa ins f frame a st = (Err AttributeError, st).
Proof. exact @deprecated_unnamed. Qed.
Print Assumptions C78_unnamed.

Theorem C78_loop : forall (W A V : Type) (fa : warning -> action) ins (f : callable W A V) g name,
  c_name f = Some name -> silent (c_call f) g -> (forall w, shows (fa w)) ->
  forall (l : list ((string * Z) * A)) st,
  let r := calls (deprecated fa ins f) (map (fun p => (Some (fst p), snd p)) l) st in
  fst r = fst (plain g (map snd l) (world st)) /\ world (snd r) = snd (plain g (map snd l) (world st)) /\
  shown (snd r) = (shown st ++ map (fun p => notice name ins (fst (fst p)) (snd (fst p))) (firstn (made g (map snd l) (world st)) l))%list.
Proof. exact @deprecated_loop. Qed.
Print Assumptions C78_loop.

Theorem C78_once_filter : forall (W A V : Type) (fa : warning -> action) ins (f : callable W A V) g name,
  c_name f = Some name -> silent (c_call f) g -> (forall w, fa w = AOnce) ->
  forall file line (l : list ((string * Z) * A)) a st,
  ~ In (w_message (notice name ins file line)) (once st) ->
  shown (snd (calls (deprecated fa ins f) (map (fun p => (Some (fst p), snd p)) ((file, line, a) :: l)) st)) = (shown st ++ [notice name ins file line])%list.
Proof. exact @deprecated_once. Qed.
Print Assumptions C78_once_filter.

(** an accumulator that rejects negative arguments *)
Definition acc : callable Z Z Z := {| c_name := Some "acc";
  c_call := fun a st => if (a <? 0)%Z then (Err ValueError, st) else (Ok (world st + a)%Z, {| world := (world st + a)%Z; shown := shown st; once := once st |}) |}.
Example C78_case :
  let st := {| world := 10%Z; shown := []; once := [] |} in
  let go act l := calls (deprecated (fun _ => act) "Use sum." acc) l st in
  let a := (Some ("x.py", 3%Z), 5%Z) in let b := (Some ("x.py", 4%Z), 2%Z) in let c := (Some ("y.py", 1%Z), (-1)%Z) in
  let lines r := map w_lineno (shown (snd r)) in
  (fst (go ADefault [a; b; a]) = Ok [15; 17; 22]%Z /\ lines (go ADefault [a; b; a]) = [3; 4; 3]%Z) /\
  (fst (go ADefault [a; c; b]) = Err ValueError /\ lines (go ADefault [a; c; b]) = [3; 1]%Z /\ world (snd (go ADefault [a; c; b])) = 15%Z) /\
  lines (go AOnce [a; b; a]) = [3]%Z /\ lines (go AIgnore [a; b]) = [] /\
  (fst (go AError [a]) = Err OtherError /\ world (snd (go AError [a])) = 10%Z) /\
  map w_message (shown (snd (go AAlways [a]))) = ["Call to deprecated function acc. Use sum."].
Proof. vm_compute. repeat split; reflexivity. Qed.
