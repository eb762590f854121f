(** * Model of /repo/pycomlink/spatial/idw.py and of the IDW part of
    /repo/pycomlink/spatial/interpolator.py

    scipy's [cKDTree.query] is an argument [query X q nnear eps ub]: for one
    query point [q] the [nnear] pairs (distance, index), missing neighbours
    having index [len(X)].  [brute_query] is a concrete one for examples and to
    show that the specification in Idw_spec.v can be met. *)
From Coq Require Import List ZArith Bool.
From Verif Require Import Base Num NumList NpOps Libm.
Import ListNotations.
Local Open Scope nat_scope.

Section Model.
Context {O : numops} (L : libm O).
Notation pt := (O * O)%type.

(** idw.py:127-151 [_numba_idw_loop], one iteration *)
Definition idw_one (z : list O) (p : O) (row : list (O * nat)) : O :=
  let row := filter (fun e => Nat.ltb (snd e) (length z)) row in
  match row with
  | [] => n_nan
  | (d0, i0) :: _ =>
      if n_ltb d0 (n_lit 1 10) then nget z i0
      else
        let w := map (fun e => n_div one (m_pow L (fst e) p)) row in
        let s := n_sum w in
        let w := map (fun x => n_div x s) w in
        n_sum (map2 n_mul w (map (fun e => nget z (snd e)) row))
  end.
Definition numba_idw_loop (z : list O) (p : O) (rows : list (list (O * nat))) : list O := map (idw_one z p) rows.

Variable query : list pt -> pt -> nat -> O -> option O -> list (O * nat).

(** [np.array_equal] *)
Definition array_equal (a b : list O) : bool :=
  Nat.eqb (length a) (length b) && forallb (fun e => n_eqb (fst e) (snd e)) (combine a b).
Definition pts_equal (a b : list pt) : bool := array_equal (map fst a) (map fst b) && array_equal (map snd a) (map snd b).

(** scipy refuses non-finite coordinates with ValueError, both as data and as
    query points *)
Definition finite_pt (a : pt) : bool :=
  negb (n_isnan (fst a) || n_isinf (fst a)) && negb (n_isnan (snd a) || n_isinf (snd a)).

(** idw.py:69-73 [Invdisttree.__init__]: the object; [cache] holds [q],
    [nnear], [eps] and the query result.  An empty list of points is not a
    2-D array: ValueError. *)
Record tree := { pts : list pt; cache : option (list pt * nat * O * list (list (O * nat))) }.
Definition new_tree (X : list pt) : res tree :=
  match X with
  | [] => Err ValueError
  | _ => if forallb finite_pt X then Ok {| pts := X; cache := None |} else Err ValueError
  end.

(** idw.py:75-124 [Invdisttree.__call__] for a 2-D [q] (a single point is
    wrapped into a batch of one and unwrapped again; an empty list of query
    points has the wrong dimension: ValueError).  [max_distance = None] means
    no limit. *)
Definition tree_call (t : tree) (q : list pt) (z : list O) (nnear : nat) (eps p : O) (max_distance : option O) : tree * res (list O) :=
  if negb (Nat.eqb (length (pts t)) (length z)) then (t, Err AssertionError) else
  if Nat.leb nnear 1 then (t, Err ValueError) else
  let hit := match cache t with
             | Some (q0, nnear0, eps0, rows0) =>
                 if pts_equal q q0 && Nat.eqb nnear nnear0 && n_eqb eps eps0 then Some rows0 else None
             | None => None
             end in
  match hit with
  | Some rows => (t, Ok (numba_idw_loop z p rows))
  | None =>
      match q with
      | [] => (t, Err ValueError)
      | _ =>
        if forallb finite_pt q then
          let rows := map (fun x => query (pts t) x nnear eps max_distance) q in
          ({| pts := pts t; cache := Some (q, nnear, eps, rows) |}, Ok (numba_idw_loop z p rows))
        else (t, Err ValueError)
      end
  end.

(** The object keeps the caller's own array as [self.q] when a 2-D float array
    was passed ([np.asarray] does not copy, idw.py:76, 108).  This is what
    happens to the object when the caller then overwrites that array. *)
Definition overwrite_q (t : tree) (q : list pt) : tree :=
  match cache t with
  | Some (_, nnear, eps, rows) => {| pts := pts t; cache := Some (q, nnear, eps, rows) |}
  | None => t
  end.

(** interpolator.py:75-86 [IdwKdtreeInterpolator.__init__]; [built] holds
    [self.x], [self.y] and [self.idw] *)
Record settings := { cf_nnear : nat; cf_p : O; cf_exclude_nan : bool; cf_max_distance : option O }.
Record interp := { conf : settings; built : option (list O * list O * tree) }.
Definition new_interp (c : settings) : interp := {| conf := c; built := None |}.

(** interpolator.py:88-116 [_interpol_func]; [eps] keeps its default 0 *)
Definition interpol_func (s : interp) (x y z xi yi : list O) : interp * res (list O) :=
  let c := conf s in
  let keep := map (fun v => negb (n_isnan v)) z in
  let sel := fun l => if cf_exclude_nan c then mask_select n_nan keep l else l in
  let x := sel x in let y := sel y in let z := sel z in
  let hit := match built s with
             | Some (x0, y0, t) => if array_equal x x0 && array_equal y y0 then Some (x0, y0, t) else None
             | None => None
             end in
  let b := match hit with
           | Some b => Ok b
           | None => do t <- new_tree (combine x y); Ok (x, y, t)
           end in
  match b with
  | Err e => (s, Err e)
  | Ok (x1, y1, t) =>
      let '(t', r) := tree_call t (combine xi yi) z (cf_nnear c) zero (cf_p c) (cf_max_distance c) in
      ({| conf := c; built := Some (x1, y1, t') |}, r)
  end.

(** With [exclude_nan=False] the interpolator keeps the caller's own arrays as
    [self.x], [self.y] (interpolator.py:91-92, 110-111); with
    [exclude_nan=True] the boolean index makes copies.  This is what happens
    when the caller overwrites the arrays from which the tree was built. *)
Definition overwrite_xy (s : interp) (x y : list O) : interp :=
  if cf_exclude_nan (conf s) then s else
  match built s with
  | Some (_, _, t) => {| conf := conf s; built := Some (x, y, t) |}
  | None => s
  end.

(** interpolator.py:30-67 [PointsToGridInterpolator.__call__] with a given
    float grid of [rows] rows and [cols] columns; grids are flattened row by
    row.  (Grid generation: Grid_model.v.) *)
Fixpoint reshape {A} (r c : nat) (l : list A) : list (list A) :=
  match r with 0 => [] | S r' => firstn c l :: reshape r' c (skipn c l) end.
Definition interp_call (s : interp) (x y z : list O) (rows cols : nat) (xgrid ygrid : list (list O)) : interp * res (list (list O)) :=
  if negb (Nat.eqb (length x) (length y) && Nat.eqb (length y) (length z)) then (s, Err AssertionError) else
  if forallb n_isnan z then (s, Ok (repeat (repeat (n_nan : O) cols) rows)) else
  let '(s', r) := interpol_func s x y z (concat xgrid) (concat ygrid) in
  (s', do zi <- r; if Nat.eqb (length zi) (rows * cols) then Ok (reshape rows cols zi) else Err ValueError).

(** ** a brute-force neighbour search *)
Definition pdist (a b : pt) : O :=
  let dx := n_sub (fst a) (fst b) in let dy := n_sub (snd a) (snd b) in
  n_sqrt (n_add (n_mul dx dx) (n_mul dy dy)).
Fixpoint insert_by (d : nat -> O) (i : nat) (l : list nat) : list nat :=
  match l with [] => [i] | j :: t => if n_leb (d i) (d j) then i :: l else j :: insert_by d i t end.
Definition sort_by (d : nat -> O) (l : list nat) : list nat := fold_right (insert_by d) [] l.
Definition below (ub : option O) (x : O) : bool := match ub with None => true | Some u => n_ltb x u end.
Definition brute_query (X : list pt) (q : pt) (k : nat) (eps : O) (ub : option O) : list (O * nat) :=
  let d := fun i => pdist q (get (n_nan, n_nan) X i) in
  let used := firstn k (sort_by d (filter (fun i => below ub (d i)) (seq 0 (length X)))) in
  map (fun i => (d i, i)) used ++ repeat (n_div one zero, length X) (k - length used).
End Model.
Arguments tree : clear implicits.
Arguments settings : clear implicits.
Arguments interp : clear implicits.
