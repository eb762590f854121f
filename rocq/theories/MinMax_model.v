(** * Model of /repo/pycomlink/processing/min_max.py *)
From Coq Require Import List ZArith Bool.
From Verif Require Import Base Num NumList NpOps.
Import ListNotations.

Section MinMax.
Context {O : numops}.

(** [np.nanmean]: mean of the non-NaN elements, NaN if there are none (0/0).
    numpy sums pairwise, here left to right. *)
Definition nanmean (l : list O) : O := n_mean (filter (fun x => negb (n_isnan x)) l).

(** min_max.py:29-30: [A[np.isnan(A)] = np.rint(np.nanmean(A))] *)
Definition fill_nan (l : list O) : list O := mask_fill (map n_isnan l) (n_rint (nanmean l)) l.

(** min_max.py:4-39 [_calc_A_min_max] on 1-D arrays, [window >= 0] *)
Definition calc_A_min_max (tx_min tx_max rx_min rx_max : list O) (gT gR : O) (window : nat) : res (list O) :=
  let bias := n_div (n_add gT gR) (n_ofZ 2) in
  (* 26-27 *)
  do d1 <- bcast2 n_sub tx_max rx_min;
  let Ac_max := map (fun x => n_sub x bias) d1 in
  do d2 <- bcast2 n_sub tx_min rx_max;
  let Ac_min := map (fun x => n_add x bias) d2 in
  let Ac_max := fill_nan Ac_max in
  let Ac_min := fill_nan Ac_min in
  (* 33-35 *)
  do Ar_max <- for_range_res (seq window (length Ac_max - window))
    (fun i Ar_max =>
       do m <- np_min (slice (i - window) (i + 1) Ac_min);
       Ok (upd i (n_sub (nget Ac_max i) m) Ar_max))
    (repeat zero (length Ac_max));
  (* 36 *)
  let Ar_max := map (fun x => if n_ltb x zero then zero else x) Ar_max in
  (* 37 *)
  Ok (upd_slice 0 (repeat n_nan (Nat.min window (length Ar_max))) Ar_max).
End MinMax.
