(** * Model of /repo/pycomlink/processing/pytorch_utils/run_inference.py and
    build_dataloader, predict_batch in pytorch_utils.py

    Oracle: [net b] is the model's output for a batch of samples (channels x
    window).  Simplified: one number type [O] (the code converts to float32);
    link ids are strings, times integers; the data have dimensions cml_id, time,
    channel with time before channel; each prediction is one number.
    [int(reflength / 2)] is taken exactly, which holds for |reflength| <= 2^53. *)
From Coq Require Import List ZArith Bool String.
From Verif Require Import Base Num NumList NearbyWetdry_model TfInfer_model.
Import ListNotations.
Local Open Scope nat_scope.
Local Notation length := List.length.

(** Python list/array index: negative ones count from the end *)
Definition py_index {A} (l : list A) (i : Z) : res A :=
  match np_index (length l) i with
  | Some j => match nth_error l j with Some x => Ok x | None => Err IndexError end
  | None => Err IndexError
  end.

(** run_inference.py:35-65 *)
Definition rolling_window {A} (timeseries : list A) (valid_times : list Z) (window_size reflength : Z) : res (list (list A) * list Z) :=
  if (window_size <=? 0)%Z then Err AssertionError
  else if negb (length valid_times =? length timeseries) then Err AssertionError
  else
    let h := Z.quot reflength 2 in
    let w := Z.to_nat window_size in
    do l <- mapM (fun start =>
        let e := start + w in
        if e <=? length timeseries then
          let target_idx := (if (0 <=? Z.of_nat e - h) then Z.of_nat e - h else Z.of_nat e - 1)%Z in
          do t <- py_index valid_times target_idx;
          Ok [(slice start e timeseries, t)]
        else Ok []) (seq 0 (length timeseries));
    Ok (map fst (List.concat l), map snd (List.concat l)).

Section Torch.
Context {O : numops}.

(** xarray.DataArray with dimensions (cml_id, time, channel) *)
Record cube := { c_ids : list string; c_times : list Z; c_channels : nat; c_values : list (list (list O)) }.

(** run_inference.py:68-106; [data.sel(cml_id=cml)] for distinct ids is the link's
    own block.  No link: np.concatenate of nothing. *)
Definition batchify_windows (data : cube) (window_size reflength : Z) : res (list string * list Z * list (list (list O))) :=
  do samples <- mapM (fun p => do wt <- rolling_window (snd p) (c_times data) window_size reflength;
                               Ok (repeat (fst p) (length (fst wt)), snd wt, fst wt)) (combine (c_ids data) (c_values data));
  if length samples =? 0 then Err ValueError
  else Ok (List.concat (map (fun s => fst (fst s)) samples), List.concat (map (fun s => snd (fst s)) samples), List.concat (map (fun s => snd s) samples)).

(** [permute(0, 2, 1)] of one sample: channels first *)
Definition permute (channels : nat) (w : list (list O)) : list (list O) := map (fun c => map (fun row => nget row c) w) (seq 0 channels).

(** DataLoader without shuffling: consecutive batches, the last may be shorter *)
Fixpoint batches {A} (fuel : nat) (b : nat) (l : list A) : list (list A) :=
  match fuel with
  | 0 => []
  | S fuel => match l with [] => [] | _ => firstn b l :: batches fuel b (skipn b l) end
  end.

(** pytorch_utils.py:54-77; without samples the array is 1-D and [permute] fails *)
Definition build_dataloader (channels : nat) (data : list (list (list O))) (batch_size : Z) : res (list (list (list (list O)))) :=
  if length data =? 0 then Err RuntimeError
  else if (batch_size <=? 0)%Z then Err ValueError
  else Ok (batches (length data) (Z.to_nat batch_size) (map (permute channels) data)).

(** run_inference.py:110-140 *)
Definition run_inference (net : list (list (list O)) -> list O) (window_size : Z) (data : cube) (batch_size reflength : Z) : res (list O * list string * list Z) :=
  do c <- batchify_windows data window_size reflength;
  let '(ids, times, samples) := c in
  do loader <- build_dataloader (c_channels data) samples batch_size;
  Ok (List.concat (map net loader), ids, times).

Fixpoint first_time (ts : list Z) (t : Z) : option nat :=
  match ts with [] => None | x :: r => if (x =? t)%Z then Some 0 else option_map S (first_time r t) end.
(** run_inference.py:143-190 *)
Definition redistribute_results (r : list O * list string * list Z) (data : cube) : list (list O) :=
  let '(predictions, ids, times) := r in
  fold_left (fun m p => let '(c, t, v) := p in
      match first_index (c_ids data) c, first_time (c_times data) t with
      | Some j, Some i => upd2 i j v m
      | _, _ => m
      end) (combine (combine ids times) predictions)
    (repeat (repeat (n_nan : O) (length (c_ids data))) (length (c_times data))).

(** run_inference.py:193-219, after the model is loaded *)
Definition cnn_wd (net : list (list (list O)) -> list O) (window_size : Z) (data : cube) (batch_size reflength : Z) : res (list (list O)) :=
  do r <- run_inference net window_size data batch_size reflength;
  Ok (redistribute_results r data).
End Torch.
Arguments cube : clear implicits.
