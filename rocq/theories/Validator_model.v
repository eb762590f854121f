(** * Model of GridValidator in /repo/pycomlink/validation/validator.py

    Oracle: the intersection weights (poligrain's calc_intersect_weights) are an
    argument.  Simplified: times are integers; arrays are lists (time, y, x); sums
    are taken left to right over the rows (numpy may sum pairwise); localising the
    grid times to a time zone is a function [loc] on times that does not raise;
    the data frame has one column.  Monotonic decreasing grid times, which pandas
    accepts in reindex, are rejected here. *)
From Coq Require Import List ZArith Bool String Arith.
From Verif Require Import Base Num NumList NpOps MinMax_model.
Import ListNotations.
Local Open Scope nat_scope.
Local Notation length := List.length.

(** [.min()] and [.max()] of an integer array *)
Definition nat_min (l : list nat) : res nat := match l with [] => Err ValueError | x :: t => Ok (fold_left Nat.min t x) end.
Definition nat_max (l : list nat) : res nat := match l with [] => Err ValueError | x :: t => Ok (fold_left Nat.max t x) end.

(** sorted distinct values (np.unique, keys of a groupby) *)
Fixpoint insert (x : Z) (l : list Z) : list Z :=
  match l with
  | [] => [x]
  | y :: t => if (x =? y)%Z then l else if (x <? y)%Z then x :: l else y :: insert x t
  end.
Definition sort_unique (l : list Z) : list Z := fold_right insert [] l.

Section Validator.
Context {O : numops}.

(** [np.where(w > 0)] as pairs (row, column) *)
Definition where_positive (w : list (list O)) : list (nat * nat) :=
  flat_map (fun i => map (fun j => (i, j)) (where_true (map (fun x => n_ltb zero x) (get [] w i)))) (seq 0 (length w)).

(** [.sum()] of xarray: NaN counts as zero *)
Definition nansum (l : list O) : O := n_sum (map (fun x => if n_isnan x then zero else x) l).

(** validator.py:58-86; np.unique does not change minimum and maximum and is left out.
    The result is the data frame as (time, value) pairs. *)
Definition get_time_series (intersect_weights : list (list O)) (index_1 index_2 : list Z) (times : list Z) (values : list (list (list O)))
  : res (list (Z * O)) :=
  match index_1, rev index_2 with
  | t_start :: _, t_stop :: _ =>
      let t_mask := map (fun t => ((t_start <? t) && (t <? t_stop))%Z) times in
      let pos := where_positive intersect_weights in
      do x0 <- nat_min (map snd pos); do x1 <- nat_max (map snd pos);
      do y0 <- nat_min (map fst pos); do y1 <- nat_max (map fst pos);
      let box m := map (slice x0 (x1 + 1)) (slice y0 (y1 + 1) m) in
      let w := box intersect_weights in
      Ok (map (fun i => (get 0%Z times i, nansum (List.concat (map2 (map2 n_mul) (box (get [] values i)) w)))) (where_true t_mask))
  | _, _ => Err IndexError
  end.

(** [df.reindex(target, method=...)] of a frame whose values are the grid times *)
Fixpoint increasing (l : list Z) : bool :=
  match l with a :: ((b :: _) as t) => (a <? b)%Z && increasing t | _ => true end.
Fixpoint bfill (index : list (Z * Z)) (t : Z) : option Z :=
  match index with [] => None | (k, v) :: r => if (t <=? k)%Z then Some v else bfill r t end.
Fixpoint ffill (index : list (Z * Z)) (t : Z) (last : option Z) : option Z :=
  match index with [] => last | (k, v) :: r => if (k <=? t)%Z then ffill r t (Some v) else last end.

(** validator.py:88-109 *)
Definition resample_to_grid_time_series (weighted_grid_sum : option (list (Z * O))) (df : list (Z * O)) (grid_time_index_label : string) (grid_time_zone : option (Z -> Z))
  : res (list (Z * O)) :=
  match weighted_grid_sum with
  | None => Err AttributeError
  | Some ws =>
      let grid := map fst ws in
      let index := map (match grid_time_zone with None => fun t => t | Some loc => loc end) grid in
      do fill <- (if (grid_time_index_label =? "right")%string then Ok (bfill (combine index grid))
                  else if (grid_time_index_label =? "left")%string then Ok (fun t => ffill (combine index grid) t None)
                  else Err NotImplementedError);
      if negb (increasing index) then Err ValueError
      else
        let keyed := map (fun p => (fill (fst p), snd p)) df in
        let keys := sort_unique (flat_map (fun p => match fst p with Some k => [k] | None => [] end) keyed) in
        Ok (map (fun k => (k, nanmean (map snd (filter (fun p => match fst p with Some k' => (k' =? k)%Z | None => false end) keyed)))) keys)
  end.
End Validator.
