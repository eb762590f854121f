(** * Model of /repo/pycomlink/processing/xarray_wrapper.py

    Simplified: function signatures have positional-or-keyword parameters only
    (all wrapped functions do); a DataArray is given by its other dimensions
    with sizes, the length of its time dimension (if any) and its data in
    row-major order with time last; coordinate labels are not modelled (only
    sizes are compared); dtypes are not modelled.  numpy arrays mixed with
    DataArrays are not modelled (OtherError). *)
From Coq Require Import List ZArith Bool String.
From Verif Require Import Base.
Import ListNotations.
Local Open Scope nat_scope.
Local Notation length := List.length.

Section Wrapper.
Context {A : Type} (dA : A).

Inductive val :=
| Empty                                                      (* inspect.Parameter.empty *)
| Plain (a : A)                                              (* no attribute dims *)
| Series (l : list A)                                        (* 1-D numpy array *)
| DA (dims : list (string * nat)) (time : option nat) (data : list A).
Inductive ret := RScalar (a : A) | RSeries (l : list A) | RTuple (l : list (list A)) | RDA (dims : list (string * nat)) (time : nat) (data : list A).

Definition param : Type := string * option val.              (* name, default *)
Definition func := list val -> res ret.                      (* called with one value per parameter *)

Definition kw_get (kwargs : list (string * val)) (name : string) : option val :=
  option_map snd (find (fun p => (fst p =? name)%string) kwargs).

(** xarray_wrapper.py:56-76 *)
Definition new_arg (args : list val) (kwargs : list (string * val)) (i : nat) (p : param) : val :=
  if i <? length args then get Empty args i else
  match kw_get kwargs (fst p) with
  | Some v => v
  | None => match snd p with Some d => d | None => Empty end
  end.
Definition get_new_args_dict (params : list param) (args : list val) (kwargs : list (string * val)) : list (string * val) :=
  map (fun ip => (fst (snd ip), new_arg args kwargs (fst ip) (snd ip))) (combine (seq 0 (length params)) params).

(** Python's own call [func( *args, **kwargs)] *)
Definition in_names (ps : list param) (n : string) : bool := existsb (fun p => (fst p =? n)%string) ps.
Fixpoint bind_rest (ps : list param) (kwargs : list (string * val)) : res (list val) :=
  match ps with
  | [] => Ok []
  | p :: ps =>
      do v <- match kw_get kwargs (fst p) with
              | Some v => Ok v
              | None => match snd p with Some d => Ok d | None => Err TypeError end   (* missing argument *)
              end;
      do vs <- bind_rest ps kwargs;
      Ok (v :: vs)
  end.
Definition py_bind (params : list param) (args : list val) (kwargs : list (string * val)) : res (list val) :=
  if length params <? length args then Err TypeError                                     (* too many positional *)
  else if negb (forallb (fun k => in_names params (fst k)) kwargs) then Err TypeError     (* unexpected keyword *)
  else if existsb (fun k => in_names (firstn (length args) params) (fst k)) kwargs then Err TypeError  (* multiple values *)
  else do rest <- bind_rest (skipn (length args) params) kwargs; Ok (args ++ rest).
Definition py_call (f : func) (params : list param) (args : list val) (kwargs : list (string * val)) : res ret :=
  do vs <- py_bind params args kwargs; f vs.

(** xarray_wrapper.py:23-36 *)
Definition has_time (v : val) : bool := match v with DA _ (Some _) _ => true | _ => false end.

(** ** [xr.apply_ufunc(..., output_core_dims=[["time"]], vectorize=True)] *)
Fixpoint ndindex (sizes : list nat) : list (list nat) :=
  match sizes with
  | [] => [[]]
  | n :: r => flat_map (fun i => map (cons i) (ndindex r)) (seq 0 n)
  end.
Fixpoint prod (sizes : list nat) : nat := match sizes with [] => 1 | n :: r => n * prod r end.
Fixpoint rm_index (sizes idx : list nat) : nat :=
  match sizes, idx with
  | _ :: r, i :: ix => i * prod r + rm_index r ix
  | _, _ => 0
  end.
(** index of dimension [d] in an index tuple for [dims] *)
Fixpoint dim_index (dims : list (string * nat)) (idx : list nat) (d : string) : nat :=
  match dims, idx with
  | (d', _) :: r, i :: ix => if (d' =? d)%string then i else dim_index r ix d
  | _, _ => 0
  end.

(** unified dimension sizes in order of first appearance; ValueError if they conflict *)
Definition add_dim (acc : list (string * nat)) (dn : string * nat) : res (list (string * nat)) :=
  match find (fun p => (fst p =? fst dn)%string) acc with
  | Some p => if snd p =? snd dn then Ok acc else Err ValueError
  | None => Ok (acc ++ [dn])
  end.
Fixpoint add_dims (acc : list (string * nat)) (l : list (string * nat)) : res (list (string * nat)) :=
  match l with [] => Ok acc | dn :: l => do acc <- add_dim acc dn; add_dims acc l end.
Definition other_dims (v : val) : list (string * nat) := match v with DA dims _ _ => dims | _ => [] end.
Definition unify_dims (vs : list val) : res (list (string * nat)) := add_dims [] (flat_map other_dims vs).
Definition time_lengths (vs : list val) : list nat := flat_map (fun v => match v with DA _ (Some n) _ => [n] | _ => [] end) vs.
Definition unify_time (vs : list val) : res nat :=
  match time_lengths vs with
  | [] => Err ValueError
  | n :: l => if forallb (Nat.eqb n) l then Ok n else Err ValueError
  end.

(** what the function receives at one index: the series of a DataArray with
    time, the element of one without *)
Definition slice_arg (dims : list (string * nat)) (idx : list nat) (v : val) : val :=
  match v with
  | DA ds time data =>
      let k := rm_index (map snd ds) (map (fun d => dim_index dims idx (fst d)) ds) in
      match time with
      | Some n => Series (firstn n (skipn (k * n) data))
      | None => Plain (get dA data k)
      end
  | _ => v
  end.

(** np.vectorize: one output expected; the first result fixes the shape, later
    ones may be broadcast to it *)
Definition fit (n : nat) (first : bool) (r : ret) : res (list A) :=
  match r with
  | RTuple l => if length l =? 1 then Err AttributeError else Err ValueError
  | RSeries l => if length l =? n then Ok l
                 else if first then Err ValueError
                 else if length l =? 1 then Ok (repeat (get dA l 0) n) else Err ValueError
  | RScalar a => if first then Err ValueError else Ok (repeat a n)
  | RDA _ _ _ => Err OtherError
  end.
Fixpoint vec_loop (f : func) (n : nat) (dims : list (string * nat)) (vs : list val) (first : bool) (idxs : list (list nat)) : res (list A) :=
  match idxs with
  | [] => if first then Err ValueError else Ok []     (* size 0 without otypes *)
  | idx :: idxs =>
      do r <- f (map (slice_arg dims idx) vs);
      do l <- fit n first r;
      do rest <- vec_loop f n dims vs false idxs;
      Ok (l ++ rest)
  end.
Definition is_numpy (v : val) : bool := match v with Series _ => true | _ => false end.
Definition apply_ufunc (f : func) (vs : list val) : res ret :=
  if existsb is_numpy vs then Err OtherError else
  do n <- unify_time vs;
  do dims <- unify_dims vs;
  do out <- vec_loop f n dims vs true (ndindex (map snd dims));
  Ok (RDA dims n out).

(** xarray_wrapper.py:17-49 *)
Definition inner (f : func) (params : list param) (args : list val) (kwargs : list (string * val)) : res ret :=
  let vs := map snd (get_new_args_dict params args kwargs) in
  if existsb has_time vs then apply_ufunc f vs else py_call f params args kwargs.
End Wrapper.
Arguments val : clear implicits. Arguments ret : clear implicits. Arguments param : clear implicits. Arguments func : clear implicits.
