(** * Model of /repo/pycomlink/processing/tensorflow_utils (samples, scaling, storage)

    Oracle: [net x] stands for the Keras model's output for one sample.
    Simplified: one number type [O] throughout (the code converts to float32
    at several places; nothing below depends on the number type, so [O] may be
    float32); link ids are distinct strings (a repeated label would make [.sel]
    return several links at once); the dataset has dimensions cml_id and time
    only; [seq_len = 0] is not modelled (OtherError). *)
From Coq Require Import List ZArith Bool String.
From Verif Require Import Base Num NumList NpOps NearbyWetdry_model.
Import ListNotations.
Local Open Scope nat_scope.
Local Notation length := List.length.

Section Tf.
Context {O : numops}.

Record dataset := { ds_ids : list string; ds_time : nat; ds_vars : list (string * list (list O)) }.
Definition sample := list (list O).        (* seq_len rows of one value per variable *)

Fixpoint first_index (ids : list string) (c : string) : option nat :=
  match ids with
  | [] => None
  | x :: r => if (x =? c)%string then Some 0 else option_map S (first_index r c)
  end.

(** inference_utils.py:49-55: one row of values per time step; None = KeyError *)
Definition link_inputs (ds : dataset) (cml : string) (input_vars : list string) : res (option (list (list O))) :=
  match first_index (ds_ids ds) cml with
  | None => Ok None
  | Some i =>
      match fold_right (fun v acc => match find (fun p => (fst p =? v)%string) (ds_vars ds), acc with
                                     | Some p, Some rows => Some (get [] (snd p) i :: rows)
                                     | _, _ => None
                                     end) (Some []) input_vars with
      | None => Ok None
      | Some [] => Err ValueError                                  (* np.stack of nothing *)
      | Some cols => Ok (Some (map (fun t => map (fun c => nget c t) cols) (seq 0 (ds_time ds))))
      end
  end.

Definition finite (v : O) : bool := negb (n_isnan v) && negb (n_isinf v).

(** inference_utils.py:57-66 *)
Definition link_samples (seq_len : nat) (cml : string) (inputs : list (list O)) : list (sample * string * nat) :=
  if length inputs <? seq_len then [] else
  flat_map (fun t => let x_seq := slice (t + 1 - seq_len) (t + 1) inputs in
                     if forallb (forallb finite) x_seq then [(x_seq, cml, t)] else [])
           (seq (seq_len - 1) (length inputs - (seq_len - 1))).

(** inference_utils.py:32-68; the three result lists as one list of triples *)
Definition create_samples (ds : dataset) (cml_ids input_vars : list string) (seq_len : nat) : res (list (sample * string * nat)) :=
  if seq_len =? 0 then Err OtherError else
  do ls <- mapM (fun cml => do inp <- link_inputs ds cml input_vars;
                            Ok (match inp with None => [] | Some inputs => link_samples seq_len cml inputs end)) cml_ids;
  Ok (List.concat ls).

(** sklearn StandardScaler.fit on one column: mean and scale; the scale of a
    feature that is constant up to rounding is 1 ([_is_constant_feature]) *)
Definition fit_scaler (feat : list O) : O * O :=
  let n := n_ofZ (Z.of_nat (length feat)) in
  let mean := n_div (n_sum feat) n in
  let var := n_div (n_sum (map (fun x => n_mul (n_sub x mean) (n_sub x mean)) feat)) n in
  let eps := n_div (n_ofZ 1) (n_ofZ (2 ^ 52)) in
  let b := n_mul (n_mul n mean) eps in
  let upper := n_add (n_mul (n_mul n eps) var) (n_mul b b) in
  (mean, if n_leb var upper then one else n_sqrt var).
Definition transform (p : O * O) (x : O) : O := n_div (n_sub x (fst p)) (snd p).

Definition feature (i : nat) (X : list sample) : list O := List.concat (map (map (fun row => nget row i)) X).

(** inference_utils.py:71-91.  Fewer variables than features would leave parts
    of the array uninitialised (OtherError), more are an IndexError. *)
Definition scale_features (X : list sample) (n_vars n_features : nat) : res (list sample) :=
  if n_features <? n_vars then Err IndexError
  else if n_vars <? n_features then Err OtherError
  else
    let ps := map (fun i => fit_scaler (feature i X)) (seq 0 n_vars) in
    Ok (map (map (fun row => map2 transform ps row)) X).

(** ** store_predictions *)
Definition upd2 (t j : nat) (v : O) (m : list (list O)) : list (list O) := upd t (upd j v (get [] m t)) m.

(** numpy index [t] into an axis of length [n]: negative indices count from the end *)
Definition np_index (n : nat) (t : Z) : option nat :=
  if ((0 <=? t) && (t <? Z.of_nat n))%Z then Some (Z.to_nat t)
  else if ((- Z.of_nat n <=? t) && (t <? 0))%Z then Some (Z.to_nat (t + Z.of_nat n))
  else None.

(** inference_utils.py:268-282, one iteration *)
Definition store_one (n_time : nat) (all_ids : list string) (recs : list (O * string * Z)) (c : string) (m : list (list O)) : res (list (list O)) :=
  let sel := filter (fun r => (snd (fst r) =? c)%string) recs in
  match sel with
  | [] => Ok m
  | _ =>
      match first_index all_ids c with
      | None => Ok m
      | Some j =>
          let valid := filter (fun r => (snd r <? Z.of_nat n_time)%Z) sel in
          do ws <- mapM (fun r => match np_index n_time (snd r) with Some t => Ok (t, fst (fst r)) | None => Err IndexError end) valid;
          Ok (fold_left (fun m w => upd2 (fst w) j (snd w) m) ws m)
      end
  end.
Fixpoint store_loop (n_time : nat) (all_ids : list string) (recs : list (O * string * Z)) (use : list string) (m : list (list O)) : res (list (list O)) :=
  match use with
  | [] => Ok m
  | c :: use => do m <- store_one n_time all_ids recs c m; store_loop n_time all_ids recs use m
  end.

(** inference_utils.py:219-295.  [np.unique] sorts; the order of the links does
    not matter because different links have different columns *)
Definition store_predictions (ds : dataset) (model_prob : list O) (cml_ids : list string) (time_indices : list Z) (cml_ids_to_use : option (list string)) : res (list (list O)) :=
  if negb (length model_prob =? length cml_ids) || negb (length model_prob =? length time_indices) then Err ValueError else
  let n_time := ds_time ds in
  let recs := combine (combine model_prob cml_ids) time_indices in
  let use := match cml_ids_to_use with Some l => l | None => nodup string_dec cml_ids end in
  store_loop n_time (ds_ids ds) recs use (repeat (repeat (n_nan : O) (length (ds_ids ds))) n_time).

(** run_inference.py:15-106 (after the model is loaded); returns the predictions.
    Without samples [np.array([])] is 1-D and [input_seq[:, :, i]] an IndexError
    (with an empty list of variables the code would fail elsewhere). *)
Definition wet_dry_1d_cnn (net : sample -> O) (ds : dataset) (input_vars : list string) (seq_len : nat) (cml_ids : option (list string)) : res (list (list O)) :=
  let cml_ids := match cml_ids with Some l => l | None => ds_ids ds end in
  do s <- create_samples ds cml_ids input_vars seq_len;
  if length s =? 0 then Err IndexError else
  do X_scaled <- scale_features (map (fun r => fst (fst r)) s) (length input_vars) (length input_vars);
  store_predictions ds (map net X_scaled) (map (fun r => snd (fst r)) s) (map (fun r => Z.of_nat (snd r)) s) None.
End Tf.
Arguments dataset : clear implicits.
