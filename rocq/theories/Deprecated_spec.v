(** * What a deprecation decorator should do *)
From Coq Require Import List String Bool ZArith.
From Verif Require Import Base Deprecated_model.
Import ListNotations.
Local Open Scope string_scope.

(** [st'] is [st] with exactly one more warning shown *)
Definition one_more {W} (w : warning) (st st' : state W) : Prop :=
  world st' = world st /\ shown st' = (shown st ++ [w])%list.
(** the warning for a call of [name] from line [line] of [file] *)
Definition notice (name instructions file : string) (line : Z) : warning :=
  {| w_message := String.concat "" ["Call to deprecated function "; name; ". "; instructions]; w_filename := file; w_lineno := line |}.
(** a function that shows no warnings itself and ignores those shown before *)
Definition silent {W A V} (f : A -> state W -> res V * state W) (g : A -> W -> res V * W) : Prop :=
  forall a st, f a st = (fst (g a (world st)), {| world := snd (g a (world st)); shown := shown st; once := once st |}).
(** running the undecorated function on a list of arguments *)
Fixpoint plain {W A V} (g : A -> W -> res V * W) (l : list A) (w : W) : res (list V) * W :=
  match l with
  | [] => (Ok [], w)
  | a :: l => match g a w with
              | (Err e, w) => (Err e, w)
              | (Ok v, w) => match plain g l w with (Ok vs, w) => (Ok (v :: vs), w) | (Err e, w) => (Err e, w) end
              end
  end.
(** number of calls made by [plain] *)
Fixpoint made {W A V} (g : A -> W -> res V * W) (l : list A) (w : W) : nat :=
  match l with
  | [] => 0
  | a :: l => match g a w with (Err _, _) => 1 | (Ok _, w) => S (made g l w) end
  end.
(** filter actions that show every warning *)
Definition shows (a : action) : Prop := a = AAlways \/ a = ADefault \/ a = AModule.
