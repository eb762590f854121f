(** * Properties C76, C92: validation against a grid *)
From Coq Require Import List ZArith Bool String.
From Verif Require Import Base Num NumF64 NumList Validator_model Validator_spec Validator_proofs Validator_proofs2.
Import ListNotations.
Local Open Scope nat_scope.
Local Notation length := List.length.

Theorem C76_bounding_box_is_enough : forall (O : numops) (S : numsem O) H W (w : list (list O)) (i1 i2 : list Z) times values t_first t_last,
  mat H W w -> length values = length times -> (forall t, t < length times -> mat H W (get [] values t)) ->
  (forall i j, i < H -> j < W -> n_ltb (at2 w i j) zero = false) ->
  (exists i j, i < H /\ j < W /\ n_ltb zero (at2 w i j) = true) ->
  exists r, get_time_series w (t_first :: i1) (i2 ++ [t_last]) times values = Ok r /\
  Forall2 (fun t p => fst p = get 0%Z times t /\ val S (snd p) = val S (whole_sum H W (get [] values t) w))
    (filter (fun t => (t_first <? get 0%Z times t) && (get 0%Z times t <? t_last))%Z (seq 0 (length times))) r.
Proof. exact @time_series_correct. Qed.
Print Assumptions C76_bounding_box_is_enough.

Theorem C76_no_positive_weight : forall (O : numops) (w : list (list O)) (i1 i2 : list Z) times values, i1 <> [] -> i2 <> [] ->
  (forall i j, i < length w -> j < length (get [] w i) -> n_ltb zero (at2 w i j) = false) -> get_time_series w i1 i2 times values = Err ValueError.
Proof. exact @time_series_no_weight. Qed.
Print Assumptions C76_no_positive_weight.

Theorem C76_no_data : forall (O : numops) (w : list (list O)) (i1 i2 : list Z) times values,
  i1 = [] \/ i2 = [] -> get_time_series w i1 i2 times values = Err IndexError.
Proof. exact @time_series_no_data. Qed.
Print Assumptions C76_no_data.

Definition demo_w : list (list F64) := [[#0; #0; #0; #0]; [#0; #2; #0; #0]; [#0; #0; #3; #0]].
Definition demo_g (a : F64) : list (list F64) := [[#9; #9; a; #9]; [#9; #5; fNaN; #9]; [#9; #1; #4; a]].
Definition same_series (r : res (list (Z * F64))) (e : list (Z * F64)) : bool :=
  match r with Ok l => forallb (fun p => Z.eqb (fst (fst p)) (fst (snd p)) && f_same (snd (fst p)) (snd (snd p))) (combine l e) && Nat.eqb (length l) (length e) | Err _ => false end.
(** the cells outside the box are infinite at time 30 *)
Example C76_case : let values := [demo_g #1; demo_g #2; demo_g (f_div #1 #0); demo_g #1] in
  same_series (get_time_series demo_w [10; 20]%Z [15; 40]%Z [10; 20; 30; 40]%Z values) [(20, #22); (30, #22)]%Z = true /\
  f_same (whole_sum 3 4 (demo_g (f_div #1 #0)) demo_w) #22 = true.
Proof. vm_compute. auto. Qed.
Example C76_case_error : match get_time_series [[#0; #0]; [#(-1); #0]] [1]%Z [2]%Z [] [] with Err ValueError => true | _ => false end = true.
Proof. vm_compute. reflexivity. Qed.

Theorem C92_right_labels : forall (O : numops) (ws df : list (Z * O)) loc, ascending (index_of loc ws) ->
  let owner := owner_right (index_of loc ws) (map fst ws) in
  exists r, resample_to_grid_time_series (Some ws) df "right" loc = Ok r /\ ascending (map fst r) /\
  (forall k, In k (map fst r) <-> exists p, In p df /\ owner (fst p) = Some k) /\ forall k m, In (k, m) r -> m = owned_mean owner df k.
Proof. exact @resample_right. Qed.
Print Assumptions C92_right_labels.

Theorem C92_left_labels : forall (O : numops) (ws df : list (Z * O)) loc, ascending (index_of loc ws) ->
  let owner := owner_left (index_of loc ws) (map fst ws) in
  exists r, resample_to_grid_time_series (Some ws) df "left" loc = Ok r /\ ascending (map fst r) /\
  (forall k, In k (map fst r) <-> exists p, In p df /\ owner (fst p) = Some k) /\ forall k m, In (k, m) r -> m = owned_mean owner df k.
Proof. exact @resample_left. Qed.
Print Assumptions C92_left_labels.

Theorem C92_owner_right : forall index grid t k, ascending index -> length index = length grid ->
  (owner_right index grid t = Some k <-> exists i, belongs_right index t i /\ get 0%Z grid i = k).
Proof. exact owner_right_spec. Qed.
Print Assumptions C92_owner_right.

Theorem C92_owner_left : forall index grid t k, ascending index -> length index = length grid ->
  (owner_left index grid t = Some k <-> exists i, belongs_left index t i /\ get 0%Z grid i = k).
Proof. exact owner_left_spec. Qed.
Print Assumptions C92_owner_left.

Theorem C92_rejects : forall (O : numops) (ws df : list (Z * O)) label loc,
  resample_to_grid_time_series None df label loc = Err AttributeError /\
  (label <> "right"%string -> label <> "left"%string -> resample_to_grid_time_series (Some ws) df label loc = Err NotImplementedError).
Proof. exact @resample_rejects. Qed.
Print Assumptions C92_rejects.

(** samples after the last grid time (right) or before the first (left) are dropped *)
Example C92_case : let ws := [(10, #1); (20, #2); (30, #3)]%Z in
  let df := [(5, #2); (10, #4); (11, #7); (15, fNaN); (35, #8); (20, #9)]%Z in
  same_series (resample_to_grid_time_series (Some ws) df "right" None) [(10, #3); (20, #8)]%Z = true /\
  same_series (resample_to_grid_time_series (Some ws) df "left" None) [(10, f_div #11 #2); (20, #9); (30, #8)]%Z = true /\
  same_series (resample_to_grid_time_series (Some ws) df "right" (Some (fun t => t - 5)%Z)) [(10, #2); (20, f_div #11 #2); (30, #9)]%Z = true /\
  match resample_to_grid_time_series (Some ws) df "center" None with Err NotImplementedError => true | _ => false end = true.
Proof. vm_compute. auto. Qed.
