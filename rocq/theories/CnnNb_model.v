(** * Model of the CNN classification in docs/notebooks/Use pytorch models.ipynb and
    Use tensorflow models.ipynb

    Lines of the JSON files; the networks are oracles as in TorchInfer_model.v and
    TfInfer_model.v.  Simplified: link data are given per link and channel as pairs
    (tsl, rsl), one time axis [times] with the numbers [x] that xarray makes of it;
    the median of nothing is NaN. *)
From Coq Require Import List ZArith Bool String.
From Verif Require Import Base Num NumList Median TfInfer_model TorchInfer_model Workflow_model.
Import ListNotations.
Local Open Scope nat_scope.
Local Notation length := List.length.

Section M.
Context {O : numops}.
(** pytorch 57-60, tensorflow 92-95 *)
Definition losses (p : raw_par O) (x : list O) (raw : list (list (list O * list O))) : list (list (list O)) :=
  map (map (fun c => prepared p x (fst c) (snd c))) raw.
(** pytorch 74: [tl - tl.median(dim='time')], NaN skipped *)
Definition normalise (tl : list O) : list O := let m := median (not_nan tl) in map (fun v => n_sub v m) tl.
(** pytorch 71: the order of dimensions; per link (time, channel) *)
Definition cube_of (ids : list string) (times : list Z) (channels : nat) (tl : list (list (list O))) : cube O :=
  {| c_ids := ids; c_times := times; c_channels := channels;
     c_values := map (fun chs => map (fun t => map (fun c => nget (get [] chs c) t) (seq 0 channels)) (seq 0 (length times))) tl |}.
(** pytorch 71-104, 177 (there with threshold 0.8) *)
Definition torch_wet (net : list (list (list O)) -> list O) (window_size : Z) (threshold : O)
  (ids : list string) (times : list Z) (channels : nat) (tl : list (list (list O))) : res (list (list bool)) :=
  do predictions <- cnn_wd net window_size (cube_of ids times channels (map (map normalise) tl)) 32 60;
  Ok (map (map (fun v => n_ltb threshold v)) predictions).
Definition torch_nb net window_size threshold (p : raw_par O) x ids times channels raw : res (list (list bool)) :=
  torch_wet net window_size threshold ids times channels (losses p x raw).

(** tensorflow 105-106: the two channels as variables *)
Definition tf_dataset (ids : list string) (n_time : nat) (tl : list (list (list O))) : dataset O :=
  {| ds_ids := ids; ds_time := n_time;
     ds_vars := [("tl1"%string, map (fun chs => get [] chs 0) tl); ("tl2"%string, map (fun chs => get [] chs 1) tl)] |}.
(** tensorflow 92-124; the defaults are from tensorflow_utils/run_inference.py:5-6 *)
Definition tf_nb (net : list (list O) -> O) (p : raw_par O) x ids n_time raw : res (list (list O)) :=
  wet_dry_1d_cnn net (tf_dataset ids n_time (losses p x raw)) ["tl1"%string; "tl2"%string] 180 None.
End M.
