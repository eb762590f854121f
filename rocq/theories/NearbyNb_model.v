(** * Model of the nearby-link notebook from raw levels on

    /repo/docs/notebooks/Nearby link approach processing example.ipynb, lines
    501-504 and 532-534 of the JSON file, followed by [nearby_chain]
    (NearbyChain_model.v, lines 642-868).  Modelled of xarray: [where],
    [interpolate_na] (Workflow_model.v) and [resample(time=...)] with minimum
    and maximum.  Times are integers (nanoseconds since 1970), ascending;
    xarray converts them to float64 for the interpolation.  Simplified: one
    channel; all links have the same time axis (they do in the data set); an
    empty record gives no bins. *)
From Coq Require Import List ZArith Bool.
From Verif Require Import Base Num NumList NpOps Libm Stft_model Workflow_model NearbyChain_model.
Import ListNotations.
Local Open Scope nat_scope.

Section NearbyNb.
Context {O : numops} (L : libm O).
Variable cubic : list O -> list O -> O -> O.

(** 501: [rsl.where(rsl > lo)] *)
Definition where_above (lo : O) (l : list O) : list O := map (fun v => if n_ltb lo v then v else n_nan) l.
(** 502: [tsl.where(tsl < hi)] *)
Definition where_below (hi : O) (l : list O) : list O := map (fun v => if n_ltb v hi then v else n_nan) l.

(** 501-504, 532: the two levels are filled separately *)
Definition rstl (lo hi max_gap : O) (times : list Z) (rsl tsl : list O) : list O :=
  let x := map n_ofZ times in
  map2 n_sub (interpolate_na x max_gap (where_above lo rsl)) (interpolate_na x max_gap (where_below hi tsl)).

(** 533-534: [resample(time=w)], origin "start_day": bins [[o + w k, o + w (k+1))]
    from the one of the first to the one of the last time, labelled by their
    left end, [o] the midnight before the first time *)
Definition day : Z := (86400 * 10 ^ 9)%Z.
Definition origin (times : list Z) : Z := (day * (hd 0 times / day))%Z.
Definition bin_no (w : Z) (times : list Z) (t : Z) : Z := ((t - origin times) / w)%Z.
Definition bin_count (w : Z) (times : list Z) : nat :=
  match times with
  | [] => 0
  | t0 :: _ => Z.to_nat (bin_no w times (last times t0) - bin_no w times t0 + 1)
  end.
Definition bin_label (w : Z) (times : list Z) (n : nat) : Z :=
  (origin times + w * (bin_no w times (hd 0 times) + Z.of_nat n))%Z.
Definition bin_values (w : Z) (times : list Z) (l : list O) (n : nat) : list O :=
  map snd (filter (fun p : Z * O => (bin_no w times (fst p) =? bin_no w times (hd 0 times) + Z.of_nat n)%Z) (combine times l)).
Definition resample (agg : list O -> O) (w : Z) (times : list Z) (l : list O) : list O :=
  map (fun n => agg (bin_values w times l n)) (seq 0 (bin_count w times)).

(** np.nanmax; [nanmin] is in Stft_model.v *)
Definition nanmax (l : list O) : O :=
  match filter (fun x => negb (n_isnan x)) l with [] => n_nan | x :: t => np_fold (fun v acc => n_ltb acc v) x t end.

(** fill values, longest filled gap (float64 nanoseconds), bin width *)
Record nb_par := mk_nb_par { nb_lo : O; nb_hi : O; nb_gap : O; nb_width : Z }.

(** 532-534 for one link *)
Definition link_min (p : nb_par) (times : list Z) (rsl tsl : list O) : list O :=
  resample nanmin (nb_width p) times (rstl (nb_lo p) (nb_hi p) (nb_gap p) times rsl tsl).
Definition link_max (p : nb_par) (times : list Z) (rsl tsl : list O) : list O :=
  resample nanmax (nb_width p) times (rstl (nb_lo p) (nb_hi p) (nb_gap p) times rsl tsl).

(** 501-868 *)
Definition nearby_notebook (p : nb_par) (q : nearby_par O) (nw : network O) (times : list Z) (rsl tsl : list (list O)) : res (list (list O)) :=
  nearby_chain L cubic q nw (bin_count (nb_width p) times) (map2 (link_min p times) rsl tsl) (map2 (link_max p times) rsl tsl).
End NearbyNb.
Arguments nb_par : clear implicits.
Arguments mk_nb_par {O}.
