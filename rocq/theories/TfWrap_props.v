(** * Properties C97 (choice of links) and C98 (merging predictions) *)
From Coq Require Import List ZArith Bool String.
From Verif Require Import Base Num NumF64 NumList NearbyWetdry_model TfInfer_model TfWrap_model TfWrap_spec TfWrap_proofs.
Import ListNotations.
Local Open Scope nat_scope.
Local Notation length := List.length.
Local Open Scope string_scope.

(** the coordinate offered through [id_coord] only helps when the dimension is called cml_id anyway *)
Theorem C97_link_dimension_must_be_cml_id : forall (O : numops) tf net (ds : full_ds O) id_coord vars seq_len cml_ids,
  tf = Ok tt -> f_dim ds <> "cml_id" -> has_name ds id_coord = true -> 1 <= seq_len ->
  cml_ids <> None \/ id_coord = f_dim ds ->
  predict tf (Ok net) ds id_coord vars seq_len cml_ids = Err IndexError.
Proof. exact @other_dimension_name. Qed.
Print Assumptions C97_link_dimension_must_be_cml_id.

Theorem C97_named_cml_id : forall (O : numops) net (ds : full_ds O) vars seq_len cml_ids,
  f_dim ds = "cml_id" ->
  predict (Ok tt) (Ok net) ds "cml_id" vars seq_len cml_ids = wet_dry_1d_cnn net (f_data ds) vars seq_len cml_ids.
Proof. exact @named_cml_id. Qed.
Print Assumptions C97_named_cml_id.

Theorem C97_other_coordinate_is_read_as_cml_id : forall (O : numops) net (ds : full_ds O) id_coord vals vars seq_len,
  f_dim ds = "cml_id" -> id_coord <> "cml_id" -> find (fun p => (fst p =? id_coord)%string) (f_coords ds) = Some (id_coord, vals) ->
  predict (Ok tt) (Ok net) ds id_coord vars seq_len None = wet_dry_1d_cnn net (f_data ds) vars seq_len (Some vals).
Proof. exact @other_coordinate. Qed.
Print Assumptions C97_other_coordinate_is_read_as_cml_id.

Theorem C97_only_foreign_links : forall (O : numops) net (ds : dataset O) vars seq_len sel, 1 <= seq_len ->
  (forall s, In s sel -> ~ In s (ds_ids ds)) -> wet_dry_1d_cnn net ds vars seq_len (Some sel) = Err IndexError.
Proof. exact @foreign_links. Qed.
Print Assumptions C97_only_foreign_links.

Theorem C97_unknown_coordinate : forall (O : numops) tf load (ds : full_ds O) id_coord vars seq_len cml_ids,
  tf = Ok tt -> has_name ds id_coord = false -> predict tf load ds id_coord vars seq_len cml_ids = Err KeyError.
Proof. exact @unknown_coord. Qed.
Print Assumptions C97_unknown_coordinate.

Definition net_sum (w : list (list F64)) : F64 := n_sum (List.concat w).
Definition demo (dim : string) (b : list F64) : full_ds F64 :=
  {| f_dim := dim; f_coords := [("site", ["s1"; "s2"]); ("alias", ["b"; "zz"])];
     f_data := {| ds_ids := ["a"; "b"]; ds_time := 3; ds_vars := [("TL", [[#1; #1; #5]; b])] |} |}.
Definition rows_are (r : res (list (list F64))) (e : list (list F64)) : bool :=
  match r with Ok m => (List.length m =? List.length e)%nat && forallb (fun t => f_same_list (get [] m t) (get [] e t)) (seq 0 (List.length e)) | Err _ => false end.
Definition err_of {A} (r : res A) : option exn := match r with Ok _ => None | Err e => Some e end.
(** the same data with the dimension called link_id, and the coordinates site and alias as [id_coord] *)
Example C97_case :
  rows_are (predict (Ok tt) (Ok net_sum) (demo "cml_id" [fNaN; #5; fNaN]) "cml_id" ["TL"] 1 None)
    [[#(-1); fNaN]; [#(-1); #1]; [#1; fNaN]] = true /\
  rows_are (predict (Ok tt) (Ok net_sum) (demo "cml_id" [fNaN; #1; #5]) "alias" ["TL"] 1 None)
    [[fNaN; fNaN]; [fNaN; #(-1)]; [fNaN; #1]] = true /\
  err_of (predict (Ok tt) (Ok net_sum) (demo "link_id" [fNaN; #5; fNaN]) "link_id" ["TL"] 1 None) = Some IndexError /\
  err_of (predict (Ok tt) (Ok net_sum) (demo "cml_id" [fNaN; #5; fNaN]) "site" ["TL"] 1 None) = Some IndexError /\
  err_of (predict (Ok tt) (Ok net_sum) (demo "link_id" [fNaN; #5; fNaN]) "cml_id" ["TL"] 1 None) = Some KeyError.
Proof. vm_compute. repeat split; reflexivity. Qed.

Theorem C98_new_variable : forall (O : numops) (ds : dataset O) name m, variable ds name = None ->
  exists ds', merge_prediction ds name m = Ok ds' /\ ds_ids ds' = ds_ids ds /\ ds_time ds' = ds_time ds /\
  variable ds' name = Some (by_link ds m) /\ forall v, v <> name -> variable ds' v = variable ds v.
Proof. exact @merge_new. Qed.
Print Assumptions C98_new_variable.

Theorem C98_existing_variable : forall (O : numops) (ds : dataset O) name m old, variable ds name = Some old -> well_shaped ds old ->
  ((exists j t, j < length (ds_ids ds) /\ t < ds_time ds /\
      n_isnan (at_link old j t) = false /\ n_isnan (nget (get [] m t) j) = false /\ n_eqb (at_link old j t) (nget (get [] m t) j) = false) ->
   merge_prediction ds name m = Err ValueError) /\
  ((forall j t, j < length (ds_ids ds) -> t < ds_time ds ->
      n_isnan (at_link old j t) = true \/ n_isnan (nget (get [] m t) j) = true \/ n_eqb (at_link old j t) (nget (get [] m t) j) = true) ->
   exists ds' v, merge_prediction ds name m = Ok ds' /\ ds_ids ds' = ds_ids ds /\ ds_time ds' = ds_time ds /\
     variable ds' name = Some v /\ well_shaped ds v /\
     (forall j t, j < length (ds_ids ds) -> t < ds_time ds ->
        at_link v j t = if n_isnan (at_link old j t) then nget (get [] m t) j else at_link old j t) /\
     forall x, x <> name -> variable ds' x = variable ds x).
Proof. exact @merge_existing. Qed.
Print Assumptions C98_existing_variable.

Theorem C98_rerun_is_idempotent : forall (O : numops), numsem O -> forall tf load (ds ds1 : full_ds O) id_coord vars seq_len name sel,
  f_dim ds = "cml_id" -> variable (f_data ds) name = None -> ~ In name vars -> name <> id_coord ->
  cnn_ds tf load ds id_coord vars seq_len name sel = Ok ds1 ->
  exists ds2, cnn_ds tf load ds1 id_coord vars seq_len name sel = Ok ds2 /\
    ds_ids (f_data ds2) = ds_ids (f_data ds1) /\ ds_time (f_data ds2) = ds_time (f_data ds1) /\
    forall v, variable (f_data ds2) v = variable (f_data ds1) v.
Proof. exact @rerun. Qed.
Print Assumptions C98_rerun_is_idempotent.

(** running again for some of the links fails: the features are scaled with
    other means, so the predictions differ from the stored ones *)
Theorem C98_rerun_on_subset_conflicts : exists (load : res (list (list F64) -> F64)) (ds ds1 : full_ds F64),
  cnn_ds (Ok tt) load ds "cml_id" ["TL"] 1 "prob" None = Ok ds1 /\
  cnn_ds (Ok tt) load ds1 "cml_id" ["TL"] 1 "prob" (Some ["a"]) = Err ValueError.
Proof. exact subset_conflicts. Qed.
Print Assumptions C98_rerun_on_subset_conflicts.

Definition var_of (r : res (full_ds F64)) (name : string) : list F64 :=
  match r with Ok ds => match variable (f_data ds) name with Some m => List.concat m | None => [] end | Err _ => [] end.
Definition demo_old (p : list (list F64)) : dataset F64 :=
  {| ds_ids := ["a"; "b"]; ds_time := 2; ds_vars := [("TL", [[#1; #1]; [#2; #2]]); ("prob", p)] |}.
Definition var_of' (r : res (dataset F64)) (name : string) : list F64 :=
  match r with Ok ds => match variable ds name with Some m => List.concat m | None => [] end | Err _ => [] end.
(** stored: link a has 1, NaN; link b NaN, 4; the new predictions per step are (1, 3) and (2, NaN) *)
Example C98_case :
  f_same_list (var_of' (merge_prediction (demo_old [[#1; fNaN]; [fNaN; #4]]) "prob" [[#1; #3]; [#2; fNaN]]) "prob") [#1; #2; #3; #4] = true /\
  f_same_list (var_of' (merge_prediction (demo_old [[#1; fNaN]; [fNaN; #4]]) "prob" [[#1; #3]; [#2; fNaN]]) "TL") [#1; #1; #2; #2] = true /\
  err_of (merge_prediction (demo_old [[#1; fNaN]; [fNaN; #4]]) "prob" [[#1; #3]; [#2; #5]]) = Some ValueError.
Proof. vm_compute. repeat split; reflexivity. Qed.
(** scaled values of 1, 1, 5, 5 are -1, -1, 1, 1; the second call repeats the first on its result *)
Example C98_case_run :
  let run ds := cnn_ds (Ok tt) (Ok net_sum) ds "cml_id" ["TL"] 1 "prob" None in
  let again := match run (demo "cml_id" [fNaN; #5; fNaN]) with Ok d => run d | Err e => Err e end in
  f_same_list (var_of again "TL") [#1; #1; #5; fNaN; #5; fNaN] = true /\
  f_same_list (var_of again "prob") [#(-1); #(-1); #1; fNaN; #1; fNaN] = true.
Proof. vm_compute. split; reflexivity. Qed.
