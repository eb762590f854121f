(** * Model of /repo/pycomlink/processing/wet_dry/mlp.py

    Oracle: [predict sel row] stands for one row of
    [model.predict_proba(x_fts)] of the pickled model [sel]; it may raise
    (scikit-learn rejects infinities).  Simplified: the rows of a batch are
    predicted one by one (the matrix product of a batch may round
    differently); both channels are 1-D along time; coordinates of the
    DataArrays are not modelled. *)
From Coq Require Import List ZArith Bool String.
From Verif Require Import Base Num NumList NpOps Median NearbyWetdry_model.
Import ListNotations.
Local Open Scope nat_scope.
Local Notation length := List.length.

Section Mlp.
Context {O : numops}.
Variable predict : string -> list O -> res (O * O).

(** [da.rolling(time=w, min_periods=k, center=True).median().data] for even [w].
    [bn]: bottleneck is installed; it works on the series padded with
    [w/2 - 1] NaNs at the end and rejects windows longer than that. *)
Definition rolling_median_center (bn : bool) (w k : nat) (x : list O) : res (list O) :=
  if bn && Nat.ltb (length x + (w / 2 - 1)) w then Err ValueError else
  Ok (map (fun s => let v := not_nan (slice (s - w / 2) (s + w / 2) x) in
                    if Nat.ltb (length v) k then n_nan else median v) (seq 0 (length x))).

(** [sliding_window_view(x, window_shape=w)] *)
Definition sliding_window_view (x : list O) (w : nat) : res (list (list O)) :=
  if Nat.ltb (length x) w then Err ValueError
  else Ok (map (fun k => slice k (k + w) x) (seq 0 (length x - w + 1))).

(** [np.hstack([a, b])] of two matrices *)
Definition hstack (a b : list (list O)) : res (list (list O)) :=
  if Nat.eqb (length a) (length b) then Ok (map2 (@app O) a b) else Err ValueError.

(** [x.diff(dim="time", n=1)] *)
Definition diff1 (x : list O) : list O := map (fun i => n_sub (nget x (i + 1)) (nget x i)) (seq 0 (length x - 1)).

(** mlp.py:96-120 *)
Definition design_offline (bn : bool) (x1 x2 : list O) : res (list (list O)) :=
  do m1 <- rolling_median_center bn (12 * 60) (2 * 60) x1;
  let trsl1 := map2 n_sub x1 m1 in
  do m2 <- rolling_median_center bn (12 * 60) (2 * 60) x2;
  let trsl2 := map2 n_sub x2 m2 in
  let windowsize := 40 in
  let x_start := repeat (repeat (n_nan : O) (windowsize * 2)) (windowsize / 2) in
  let x_end := repeat (repeat (n_nan : O) (windowsize * 2)) (windowsize / 2 - 1) in
  do sw1 <- sliding_window_view trsl1 windowsize;
  do sw2 <- sliding_window_view trsl2 windowsize;
  do h <- hstack sw1 sw2;
  Ok (x_start ++ h ++ x_end).

(** mlp.py:122-136 *)
Definition design_online (x1 x2 : list O) : res (list (list O)) :=
  let trsl1 := diff1 x1 in
  let trsl2 := diff1 x2 in
  let windowsize := 40 in
  let x_start := repeat (repeat (n_nan : O) (windowsize * 2)) windowsize in
  do sw1 <- sliding_window_view trsl1 windowsize;
  do sw2 <- sliding_window_view trsl2 windowsize;
  do h <- hstack sw1 sw2;
  Ok (x_start ++ h).

(** mlp.py:23-149 *)
Definition mlp_wet_dry (bn : bool) (x1 x2 : list O) (model_sel : string) : res (list (O * O)) :=
  if negb ((model_sel =? "rg") || (model_sel =? "rad") || (model_sel =? "rad_online") || (model_sel =? "rg_online"))%string
  then Err ValueError else
  do x_fts <- (if ((model_sel =? "rad") || (model_sel =? "rg"))%string then design_offline bn x1 x2 else design_online x1 x2);
  let mlp_pred := repeat ((n_nan, n_nan) : O * O) (length x_fts) in
  let indices := where_true (map (fun row => negb (existsb n_isnan row)) x_fts) in
  if Nat.ltb 0 (length indices) then
    do p <- mapM (predict model_sel) (map (get [] x_fts) indices);
    Ok (scatter indices p mlp_pred)
  else Ok mlp_pred.
End Mlp.
