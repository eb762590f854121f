(** * Model of /repo/pycomlink/util/temporal.py

    Instants are integers (nanoseconds).  Simplified: the data frame has one
    column (pandas treats columns alike); both indexes are non-empty and
    sorted, [new_index] without duplicates; a time zone is a fixed offset
    (local clock = instant + offset). *)
From Coq Require Import List ZArith Bool String.
From Verif Require Import Base.
Import ListNotations.
Local Open Scope Z_scope.

(** a time zone aware index is a list of instants, a naive one a list of clock readings *)
Inductive dt_index := Aware (instants : list Z) | Naive (clock : list Z).

(** [DataFrame.groupby(key).agg(method)]: groups with missing key are dropped, keys sorted *)
Fixpoint z_insert (k : Z) (l : list Z) : list Z :=
  match l with
  | [] => [k]
  | x :: t => if k <? x then k :: l else if k =? x then l else x :: z_insert k t
  end.
Definition group_keys {V} (rows : list (option Z * V)) : list Z :=
  fold_right (fun r acc => match fst r with Some k => z_insert k acc | None => acc end) [] rows.
Definition has_key {V} (k : Z) (r : option Z * V) : bool := match fst r with Some k' => k =? k' | None => false end.
Definition groupby_agg {V W} (method : list V -> W) (rows : list (option Z * V)) : list (Z * W) :=
  map (fun k => (k, method (map snd (filter (has_key k) rows)))) (group_keys rows).

Definition z_min (l : list Z) : Z := match l with [] => 0 | x :: t => fold_left Z.min t x end.
Definition z_max (l : list Z) : Z := match l with [] => 0 | x :: t => fold_left Z.max t x end.
Definition within (a b t : Z) : bool := (a <=? t) && (t <=? b).

(** temporal.py:4-74.  [df_aware]: has the data frame's index a time zone?
    (if not, comparing it with the aware new index raises TypeError);
    [tz_offset] is the offset of [new_index_tz].  The labels of the result are
    instants. *)
Definition aggregate_df_onto_DatetimeIndex {V W} (df_aware : bool) (df : list (Z * V)) (new_index : dt_index)
  (method : list V -> W) (label : string) (tz_offset : Z) : res (list (Z * W)) :=
  do fill <- (if (label =? "right")%string then Ok true        (* bfill *)
              else if (label =? "left")%string then Ok false   (* ffill *)
              else Err NotImplementedError);
  (* (index, value of column "time") *)
  let new_t := match new_index with
               | Aware l => map (fun t => (t, t)) l
               | Naive l => map (fun c => (c - tz_offset, c)) l     (* index.tz_localize(new_index_tz) *)
               end in
  if negb df_aware then Err TypeError else
  let t_start := Z.max (z_min (map fst df)) (z_min (map fst new_t)) in
  let t_stop := Z.min (z_max (map fst df)) (z_max (map fst new_t)) in
  let new_t := filter (fun r => within t_start t_stop (fst r)) new_t in
  let df := filter (fun r => within t_start t_stop (fst r)) df in
  (* reindex(df.index, method=fill_method).time *)
  let new_time_ix := fun t =>
    option_map snd (if fill then find (fun r => t <=? fst r) new_t
                    else find (fun r => fst r <=? t) (rev new_t)) in
  let g := groupby_agg method (map (fun r => (new_time_ix (fst r), snd r)) df) in
  (* a naive result index is localized as UTC: the clock readings become instants *)
  Ok g.
