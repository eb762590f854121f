(** * What a k-d tree query must return, and vocabulary for IDW *)
From Coq Require Import List ZArith Bool Reals Arith.
From Verif Require Import Base Num NumList RealSpec RealStat Libm Idw_model.
Import ListNotations.
Local Open Scope nat_scope.

Definition in_range (d : nat -> R) (ub : option R) (i : nat) : Prop :=
  match ub with None => True | Some u => (d i < u)%R end.

(** [used] are the neighbours of a query point with distances [d] to the [n]
    data points: at most [k], all closer than [ub], nearest first, and every
    data point in range that is left out is at least as far as every used one *)
Record is_nearest (d : nat -> R) (n k : nat) (ub : option R) (used : list nat) : Prop := {
  nn_count : length used <= k;
  nn_distinct : NoDup used;
  nn_range : forall i, In i used -> i < n /\ in_range d ub i;
  nn_sorted : forall a b, a <= b -> b < length used -> (d (get 0%nat used a) <= d (get 0%nat used b))%R;
  nn_rest : forall i, i < n -> ~ In i used -> in_range d ub i ->
            length used = k /\ forall j, In j used -> (d j <= d i)%R }.

Definition rpt : Type := (R * R)%type.
Definition rdist (a b : rpt) : R := sqrt ((fst a - fst b) * (fst a - fst b) + (snd a - snd b) * (snd a - snd b)).
Definition dist_to (X : list rpt) (q : rpt) (i : nat) : R := rdist q (get (0%R, 0%R) X i).
Definition ofP (p : rpt) : XR * XR := (XFin (fst p) : XR, XFin (snd p) : XR).
Definition ofU (ub : option R) : option XR := option_map (fun u => XFin u : XR) ub.

(** scipy's contract for [eps = 0], exact arithmetic *)
Definition query_ok (query : list (XR * XR) -> XR * XR -> nat -> XR -> option XR -> list (XR * nat)) : Prop :=
  forall (X : list rpt) (q : rpt) k (ub : option R),
  exists used pad, is_nearest (dist_to X q) (length X) k ub used /\
    query (map ofP X) (ofP q) k zero (ofU ub) =
    map (fun i => (XFin (dist_to X q i) : XR, i)) used ++ repeat (pad, length X) (k - length used).

(** [v] is the inverse distance weighted mean of the values [z] of the points [used] *)
Definition is_idw (d : nat -> R) (z : list R) (p : R) (used : list nat) (v : XR) : Prop :=
  match used with
  | [] => v = n_nan
  | i0 :: _ =>
      if Rlt_dec (d i0) (1 / 10000000000) then v = (XFin (rget z i0) : XR)
      else exists r, v = (XFin r : XR) /\
           (r * rsum (map (fun i => / Rpower (d i) p) used) = rsum (map (fun i => rget z i * / Rpower (d i) p) used))%R
  end.

(** equal arrays are interchangeable for the neighbour search *)
Definition query_respects {O : numops} (query : list (O * O) -> O * O -> nat -> O -> option O -> list (O * nat)) : Prop :=
  forall X X' q q' k eps eps' ub, pts_equal X X' = true -> pts_equal [q] [q'] = true -> eps = eps' \/ n_eqb eps eps' = true ->
    query X q k eps ub = query X' q' k eps' ub.

(** ** histories *)
Section History.
Context {O : numops} (L : libm O) (query : list (O * O) -> O * O -> nat -> O -> option O -> list (O * nat)).

(** calls of one [Invdisttree] *)
Record tree_args := { a_q : list (O * O); a_z : list O; a_nnear : nat; a_eps : O; a_p : O }.
Definition call_tree (md : option O) (t : tree O) (a : tree_args) : tree O * res (list O) :=
  tree_call L query t (a_q a) (a_z a) (a_nnear a) (a_eps a) (a_p a) md.
Fixpoint tree_history (md : option O) (t : tree O) (l : list tree_args) : list (res (list O)) :=
  match l with
  | [] => []
  | a :: l => let '(t', r) := call_tree md t a in r :: tree_history md t' l
  end.

(** what a user of one interpolator does: call it, or overwrite in place the
    arrays passed as [x] and [y] in the call that built the tree *)
Record grid_args := { g_x : list O; g_y : list O; g_z : list O; g_rows : nat; g_cols : nat;
                      g_xgrid : list (list O); g_ygrid : list (list O) }.
Inductive event := Call (a : grid_args) | Overwrite (x y : list O).
Definition call_interp (s : interp O) (a : grid_args) : interp O * res (list (list O)) :=
  interp_call L query s (g_x a) (g_y a) (g_z a) (g_rows a) (g_cols a) (g_xgrid a) (g_ygrid a).
Fixpoint interp_history (s : interp O) (l : list event) : list (res (list (list O))) :=
  match l with
  | [] => []
  | Call a :: l => let '(s', r) := call_interp s a in r :: interp_history s' l
  | Overwrite x y :: l => interp_history (overwrite_xy s x y) l
  end.
Fixpoint calls (l : list event) : list grid_args :=
  match l with [] => [] | Call a :: l => a :: calls l | Overwrite _ _ :: l => calls l end.
Definition overwrites (l : list event) : bool := existsb (fun e => match e with Overwrite _ _ => true | _ => false end) l.

(** the values of [a] where [z] is not missing *)
Definition present (z a : list O) : list O := map fst (filter (fun e => negb (n_isnan (snd e))) (combine a z)).
Definition rectangular (rows cols : nat) (g : list (list O)) : Prop :=
  length g = rows /\ forall r, In r g -> length r = cols.
Definition all_finite (l : list O) : Prop := forall x, In x l -> n_isnan x = false /\ n_isinf x = false.
End History.
