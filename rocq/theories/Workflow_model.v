(** * Model of the whole workflow notebook, from raw levels to rain rate

    /repo/docs/notebooks/Basic CML processing workflow.ipynb, lines of the
    JSON file as given below (the same steps: "Compare interpolation
    methods.ipynb" 581-585, 605).  The steps from the baseline on are [chain]
    of Chain_model.v.  Modelled of xarray: [where], [interpolate_na] (linear,
    with [max_gap]) and the centred rolling window.  Simplified: one channel;
    the coordinate is given as numbers [x] (xarray converts times to float64);
    np.interp's second formula, used only if the first one gives NaN, is left
    out; a window longer than the record is always incomplete. *)
From Coq Require Import List ZArith Bool.
From Verif Require Import Base Num NumList Libm Chain_model.
Import ListNotations.
Local Open Scope nat_scope.

Section Workflow.
Context {O : numops} (L : libm O).
Variable cubic : list O -> list O -> O -> O.
(** standard deviation of a complete window (bottleneck or numpy): an oracle *)
Variable std : list O -> O.

(** 536-537: [l.where(l != fill)] *)
Definition where_not (fill : O) (l : list O) : list O := map (fun v => if n_eqb v fill then n_nan else v) l.
(** 536-538 *)
Definition total_loss (fill_t fill_r : O) (tsl rsl : list O) : list O :=
  map2 n_sub (where_not fill_t tsl) (where_not fill_r rsl).

(** 595: [interpolate_na(dim='time', method='linear', max_gap=...)].  The
    gap length is the distance of the neighbouring values; np.interp fills
    nothing before the first or after the last value. *)
Definition last_valid_before (l : list O) (t : nat) : option nat :=
  find (fun k => negb (n_isnan (nget l k))) (rev (seq 0 t)).
Definition first_valid_after (l : list O) (t : nat) : option nat :=
  find (fun k => negb (n_isnan (nget l k))) (seq (t + 1) (length l - (t + 1))).
Definition interpolate_na (x : list O) (max_gap : O) (l : list O) : list O :=
  map (fun t =>
    if n_isnan (nget l t) then
      match last_valid_before l t, first_valid_after l t with
      | Some i, Some j =>
          if n_leb (n_sub (nget x j) (nget x i)) max_gap
          then n_add (n_mul (n_div (n_sub (nget l j) (nget l i)) (n_sub (nget x j) (nget x i))) (n_sub (nget x t) (nget x i))) (nget l i)
          else n_nan
      | _, _ => n_nan
      end
    else nget l t) (seq 0 (length l)).

(** 842: [rolling(time=w, center=True).std()]; the window of step [t] is
    [t - w // 2 .. t - w // 2 + w - 1]; min_periods is the window length *)
Definition rolling_std (w : nat) (l : list O) (t : nat) : O :=
  if Nat.leb (w / 2) t && Nat.leb (t - w / 2 + w) (length l)
  then let v := slice (t - w / 2) (t - w / 2 + w) l in
       if existsb n_isnan v then n_nan else std v
  else n_nan.
(** 842: [... > threshold], as 1 and 0 *)
Definition wet_flags (w : nat) (threshold : O) (l : list O) : list O :=
  map (fun t => if n_ltb threshold (rolling_std w l t) then one else zero) (seq 0 (length l)).

Record raw_par := mk_raw_par { rp_fill_t : O; rp_fill_r : O; rp_max_gap : O; rp_window : nat; rp_threshold : O }.

(** 536-595 *)
Definition prepared (p : raw_par) (x tsl rsl : list O) : list O :=
  interpolate_na x (rp_max_gap p) (total_loss (rp_fill_t p) (rp_fill_r p) tsl rsl).
(** 536-595 and 842-870 *)
Definition workflow (p : raw_par) (x tsl rsl : list O) (n : nat) (waa_max delta_t tau : O) (k : kr_args O) : res (list O) :=
  let trsl := prepared p x tsl rsl in
  chain L cubic true trsl (wet_flags (rp_window p) (rp_threshold p) trsl) n waa_max delta_t tau k.
End Workflow.
Arguments raw_par : clear implicits.
Arguments mk_raw_par {O}.
