(** * Python's argument binding; time series of a stack *)
From Coq Require Import List String Lia.
From Verif Require Import Base Wrapper_model.
Import ListNotations.
Local Open Scope nat_scope.
Local Notation length := List.length.

Section Spec.
Context {A : Type}.
(** the binding Python makes for a call it accepts (language reference, "Calls") *)
Record binds (params : list (param A)) (args : list (val A)) (kwargs : list (string * val A)) (vs : list (val A)) : Prop := {
  b_length : length vs = length params;
  b_not_too_many : length args <= length params;
  b_known : forall k v, In (k, v) kwargs -> exists i d, length args <= i < length params /\ get (EmptyString, None) params i = (k, d);
  b_positional : forall i, i < length args -> get Empty vs i = get Empty args i;
  b_keyword : forall i k d v, length args <= i < length params -> get (EmptyString, None) params i = (k, d) ->
     In (k, v) kwargs -> get Empty vs i = v;
  b_default : forall i k d, length args <= i < length params -> get (EmptyString, None) params i = (k, d) ->
     ~ (exists v, In (k, v) kwargs) -> d = Some (get Empty vs i)
}.

(** index tuples of an array with the given sizes *)
Definition valid_index (sizes idx : list nat) : Prop := Forall2 lt idx sizes.

(** element [t] of the series at position [idx] of a row-major array with time last *)
Fixpoint position (sizes idx : list nat) : nat :=
  match sizes, idx with
  | _ :: r, i :: ix => i * fold_right Nat.mul 1 r + position r ix
  | _, _ => 0
  end.
End Spec.

(** ** the series of a stack at one index of the joint dimensions *)
Section Slices.
Context {A : Type} (dA : A).
Definition dims_of (v : val A) : list (string * nat) := match v with DA ds _ _ => ds | _ => [] end.
(** the data of an array has the size its dimensions say *)
Definition well_formed (v : val A) : Prop :=
  match v with
  | DA ds t data => length data = fold_right Nat.mul 1 (map snd ds) * (match t with Some n => n | None => 1 end)
  | Series _ => False
  | _ => True
  end.
(** [ix] is the index [idx] of the joint dimensions [dims], restricted to [ds] *)
Definition restricted (dims : list (string * nat)) (idx : list nat) (ds : list (string * nat)) (ix : list nat) : Prop :=
  Forall2 (fun d i => exists j, j < length dims /\ get (EmptyString, 0) dims j = d /\ get 0 idx j = i) ds ix.
Inductive sliced (dims : list (string * nat)) (idx : list nat) : val A -> val A -> Prop :=
| sl_empty : sliced dims idx Empty Empty
| sl_plain a : sliced dims idx (Plain a) (Plain a)
| sl_series ds n data ix l : restricted dims idx ds ix -> length l = n ->
    (forall t, t < n -> get dA l t = get dA data (position (map snd ds) ix * n + t)) ->
    sliced dims idx (DA ds (Some n) data) (Series l)
| sl_elem ds data ix : restricted dims idx ds ix ->
    sliced dims idx (DA ds None data) (Plain (get dA data (position (map snd ds) ix))).
(** [dims] are the dimensions other than time of the arrays [vs] *)
Definition joint (vs : list (val A)) (dims : list (string * nat)) : Prop :=
  NoDup (map fst dims) /\ forall d n, In (d, n) dims <-> exists v, In v vs /\ In (d, n) (dims_of v).
Definition consistent (vs : list (val A)) : Prop :=
  forall v v' d n n', In v vs -> In v' vs -> In (d, n) (dims_of v) -> In (d, n') (dims_of v') -> n = n'.
End Slices.

(** ** results on the series of one stack *)
(** a wrapped function of one series *)
Definition on_series {A} (g : list A -> res (ret A)) : func A := fun xs => match xs with [Series l] => g l | _ => Err TypeError end.
(** what a result becomes on a time axis of length [n] *)
Inductive stretched {A} (n : nat) : ret A -> list A -> Prop :=
| st_series l : length l = n -> stretched n (RSeries l) l
| st_single a : stretched n (RSeries [a]) (repeat a n)
| st_scalar a : stretched n (RScalar a) (repeat a n).
