(** * The rolling sum of the outlier score as a running sum

    nearby_wetdry.py:209-211 [F_val.rolling(time=timeperiod * 4).sum()].
    xarray hands the series to bottleneck (requirements.txt:16), whose
    [move_sum] does not add the values of each window: it keeps one sum and
    one count for the whole series.  [rolling n_sum] (Median.v), used by
    NearbyWetdry_model.v, is what it is documented to compute.  Library code,
    written from its documentation and source, not from /repo. *)
From Coq Require Import List ZArith Bool.
From Verif Require Import Base Num NumList Median.
Import ListNotations.

Section Def.
Context {O : numops}.
(** the variables of the loop: [asum], [count] *)
Record running := mk_running { r_sum : O; r_count : nat }.

(** one step; [if (ai == ai)] is false for NaN *)
Definition move_step (w : nat) (l : list O) (i : nat) (st : running) : running :=
  let ai := nget l i in
  if Nat.ltb i w then
    if negb (n_isnan ai) then mk_running (n_add (r_sum st) ai) (r_count st + 1) else st
  else
    let aold := nget l (i - w) in
    if negb (n_isnan ai) then
      if negb (n_isnan aold) then mk_running (n_add (r_sum st) (n_sub ai aold)) (r_count st)
      else mk_running (n_add (r_sum st) ai) (r_count st + 1)
    else if negb (n_isnan aold) then mk_running (n_sub (r_sum st) aold) (r_count st - 1)
    else st.
(** [count >= min_count ? asum : NaN]; the first [min_count - 1] values are NaN *)
Definition move_out (k i : nat) (st : running) : O :=
  if Nat.ltb (i + 1) k then n_nan else if Nat.leb k (r_count st) then r_sum st else n_nan.
Fixpoint move_run (w k : nat) (l : list O) (i n : nat) (st : running) : list O :=
  match n with
  | 0 => []
  | S n => let st := move_step w l i st in move_out k i st :: move_run w k l (i + 1) n st
  end.
(** [bn.move_sum(l, window=w, min_count=k)]; windows that do not fit are refused like in [rolling] *)
Definition move_sum (w k : nat) (l : list O) : res (list O) :=
  if rolling_ok w k (length l) then Ok (move_run w k l 0 (length l) (mk_running zero 0)) else Err ValueError.
End Def.
Arguments running : clear implicits.
