(** * Model of the rain sums of the notebooks

    /repo/docs/notebooks/Basic CML processing workflow.ipynb 1008, 1050,
    Nearby link approach processing example.ipynb 939,
    Wet antenna attenuation.ipynb 678-682, 727, 801-813 (lines of the JSON files).
    Modelled of xarray and numpy: [resample] with bins as in NearbyNb_model.v,
    [sum], [mean] and [cumsum] with skipna, [np.sort] (NaN last), [np.cumsum].
    Simplified: one series; sums from left to right; [reindex_like] (727,
    803-812) is not modelled. *)
From Coq Require Import List ZArith Bool.
From Verif Require Import Base Num NumList NearbyNb_model.
Import ListNotations.
Local Open Scope nat_scope.

Section RainSum.
Context {O : numops}.

(** [sum], [mean] with skipna; the sum of nothing is 0 *)
Definition nan_sum (l : list O) : O := n_sum (filter (fun v => negb (n_isnan v)) l).
Definition nan_mean (l : list O) : O := n_mean (filter (fun v => negb (n_isnan v)) l).

(** workflow 1050: [R.resample(time=w).sum() / c] *)
Definition rain_sums (w : Z) (c : O) (times : list Z) (r : list O) : list O := map (fun v => n_div v c) (resample nan_sum w times r).
(** workflow 1008, wet antenna 727, 803-812: [R.resample(time=w).mean()] *)
Definition rain_means (w : Z) (times : list Z) (r : list O) : list O := resample nan_mean w times r.
(** nearby-link 939: [rainfall_amount.resample(time=w).sum() * c] *)
Definition reference_rates (w : Z) (c : O) (times : list Z) (r : list O) : list O := map (fun v => n_mul v c) (resample nan_sum w times r).

(** wet antenna 678-682: [(R / c).cumsum(dim='time')]; a missing value counts as 0 *)
Fixpoint running_total (acc : O) (l : list O) : list O :=
  match l with
  | [] => []
  | v :: t => let acc := if n_isnan v then acc else n_add acc v in acc :: running_total acc t
  end.
Definition accumulation (c : O) (r : list O) : list O := running_total zero (map (fun v => n_div v c) r).

(** [np.sort] and [np.cumsum] *)
Fixpoint sort_insert (x : O) (l : list O) : list O :=
  match l with
  | [] => [x]
  | y :: t => if negb (n_isnan x) && (n_isnan y || n_leb x y) then x :: l else y :: sort_insert x t
  end.
Definition np_sort (l : list O) : list O := fold_right sort_insert [] l.
Fixpoint np_cumsum (acc : O) (l : list O) : list O :=
  match l with
  | [] => []
  | v :: t => let acc := n_add acc v in acc :: np_cumsum acc t
  end.
(** wet antenna 801-813: [np.sort(R / c).cumsum()] *)
Definition sorted_curve (c : O) (r : list O) : list O := np_cumsum zero (np_sort (map (fun v => n_div v c) r)).
End RainSum.
