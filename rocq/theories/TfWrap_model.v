(** * Model of the outer part of [wet_dry_1d_cnn],
    /repo/pycomlink/processing/tensorflow_utils/run_inference.py

    [tf] is the result of [lazy_tf.get_tf] (modelled in Cache_model.v) and
    [load] that of [resolve_model_paths] and [load_model_from_local]: the
    network or an exception.  Simplified: the link coordinates hold strings and
    [prob_name] is not the name of a dimension or coordinate. *)
From Coq Require Import List ZArith Bool String.
From Verif Require Import Base Num NumList NearbyWetdry_model TfInfer_model.
Import ListNotations.
Local Open Scope nat_scope.
Local Notation length := List.length.

Section Wrap.
Context {O : numops}.

(** a data set whose link dimension is called [f_dim]; [f_coords] are further
    coordinates along that dimension *)
Record full_ds := { f_dim : string; f_data : dataset O; f_coords : list (string * list string) }.

Definition has_name (ds : full_ds) (name : string) : bool :=
  (name =? f_dim ds)%string || (name =? "time")%string
  || existsb (fun p => (fst p =? name)%string) (f_coords ds)
  || existsb (fun p => (fst p =? name)%string) (ds_vars (f_data ds)).

(** [ds[name].values] used as list of links.  Iterating over time stamps or
    over the rows of a variable is not modelled (OtherError). *)
Definition link_values (ds : full_ds) (name : string) : res (list string) :=
  if (name =? f_dim ds)%string then Ok (ds_ids (f_data ds))
  else match find (fun p => (fst p =? name)%string) (f_coords ds) with
       | Some p => Ok (snd p)
       | None => Err OtherError
       end.

(** what [ds.sel(cml_id=...)] (inference_utils.py:51) finds: without a
    dimension of that name it raises KeyError for every link, as if there were
    no links *)
Definition sel_view (ds : full_ds) : dataset O :=
  if (f_dim ds =? "cml_id")%string then f_data ds
  else {| ds_ids := []; ds_time := ds_time (f_data ds); ds_vars := ds_vars (f_data ds) |}.

(** predictions (time, link) in the order (link, time) of the variables *)
Definition by_link (ds : dataset O) (m : list (list O)) : list (list O) :=
  map (fun j => map (fun t => nget (get [] m t) j) (seq 0 (ds_time ds))) (seq 0 (length (ds_ids ds))).

(** [xr.merge] of two variables of the same name, compat="no_conflicts":
    values must agree where both are present, the first is then filled from
    the second.  xarray's MergeError is a ValueError. *)
Definition compatible (a b : O) : bool := n_isnan a || n_isnan b || n_eqb a b.
Definition merge_var (old new : list (list O)) : res (list (list O)) :=
  if forallb (fun r => forallb (fun e => compatible (fst e) (snd e)) (combine (fst r) (snd r))) (combine old new)
  then Ok (map2 (map2 (fun a b => if n_isnan a then b else a)) old new)
  else Err ValueError.

(** run_inference.py:103-104 [xr.merge([ds, pred_array.to_dataset()])] *)
Definition merge_prediction (ds : dataset O) (name : string) (m : list (list O)) : res (dataset O) :=
  let new := by_link ds m in
  match find (fun p => (fst p =? name)%string) (ds_vars ds) with
  | None => Ok {| ds_ids := ds_ids ds; ds_time := ds_time ds; ds_vars := ds_vars ds ++ [(name, new)] |}
  | Some p =>
      do v <- merge_var (snd p) new;
      Ok {| ds_ids := ds_ids ds; ds_time := ds_time ds;
            ds_vars := map (fun q => if (fst q =? name)%string then (name, v) else q) (ds_vars ds) |}
  end.

(** run_inference.py:43-101: everything before the merge *)
Definition predict (tf : res unit) (load : res (sample -> O)) (ds : full_ds) (id_coord : string) (input_vars : list string)
  (seq_len : nat) (cml_ids : option (list string)) : res (list (list O)) :=
  do _ <- tf;
  if negb (has_name ds id_coord) then Err KeyError else
  do ids <- match cml_ids with Some l => Ok l | None => link_values ds id_coord end;
  do net <- load;
  wet_dry_1d_cnn net (sel_view ds) input_vars seq_len (Some ids).

(** run_inference.py:15-104 with [return_ds=True] *)
Definition cnn_ds (tf : res unit) (load : res (sample -> O)) (ds : full_ds) (id_coord : string) (input_vars : list string)
  (seq_len : nat) (prob_name : string) (cml_ids : option (list string)) : res full_ds :=
  do m <- predict tf load ds id_coord input_vars seq_len cml_ids;
  do d <- merge_prediction (f_data ds) prob_name m;
  Ok {| f_dim := f_dim ds; f_data := d; f_coords := f_coords ds |}.
End Wrap.
Arguments full_ds : clear implicits.
