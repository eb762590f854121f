(** * Model of /repo/pycomlink/processing/baseline.py *)
From Coq Require Import List ZArith Bool.
From Verif Require Import Base Num NumList.
Import ListNotations.

Section Baseline.
Context {O : numops}.

(** ** baseline_constant *)

(** baseline.py:51-64 [_numba_baseline_constant].
    [np.isnan(wet[i])] (line 56) is applied to booleans and therefore always
    false, so that branch is omitted.  [~] on a numba boolean is logical
    negation.  [baseline[0:n] = trsl[0:n]] clips [n] at the array length. *)
Definition numba_baseline_constant (trsl : list O) (wet : list bool) (n : nat) : list O :=
  let baseline := repeat zero (length trsl) in
  let baseline := upd_slice 0 (slice 0 n trsl) baseline in
  for_range n (length trsl - n)
    (fun i b =>
       if get false wet i && negb (get false wet (i - 1)) then
         upd i (n_mean (slice (i - n) i b)) b
       else if get false wet i && get false wet (i - 1) then
         upd i (nget b (i - 1)) b
       else upd i (nget trsl i) b)
    baseline.

(** baseline.py:15-48 [baseline_constant] on 1-D arrays (the decorator is
    modelled in Wrapper_model.v).  [np.asarray(wet, dtype=bool)] maps every
    non-zero value, NaN included, to True.  A [wet] shorter than [trsl] makes
    numba read outside the array (undefined), [n_average_last_dry = 0] makes
    it read [wet[-1]]; both are outside the model and reported as
    [Err OtherError]. *)
Definition baseline_constant (trsl wet : list O) (n_average_last_dry : nat) : res (list O) :=
  if Nat.ltb (length wet) (length trsl) then Err OtherError
  else if Nat.eqb n_average_last_dry 0 then Err OtherError
  else Ok (numba_baseline_constant trsl (map n_truthy wet) n_average_last_dry).

(** ** baseline_linear *)

(** numba's [np.linspace(start, stop, num)]: [start + i*step] with
    [step = (stop-start)/(num-1)], last element replaced by [stop]. *)
Definition n_linspace (start stop : O) (k : nat) : list O :=
  match k with
  | 0 => []
  | 1 => [start]
  | _ =>
    let step := n_div (n_sub stop start) (n_ofZ (Z.of_nat (k - 1))) in
    map (fun i => n_add start (n_mul (n_ofZ (Z.of_nat i)) step)) (seq 0 (k - 1)) ++ [stop]
  end.

(** Loop variables of [_numba_baseline_linear], baseline.py:106-111. *)
Record lin_state := mk_lin {
  ls_baseline : list O;
  ls_last_dry_i : nat;
  ls_last_dry_rsl : O;
  ls_last_i_is_wet : bool;
  ls_found_nan : bool
}.

(** baseline.py:113-160, one iteration.  [is_wet] is kept as the truth value of
    the float (NaN is true).  The [raise] of line 160 is [Err RuntimeError]. *)
Definition lin_body (rsl wet : list O) (ignore_nan : bool) (i : nat) (st : lin_state) : res lin_state :=
  let rsl_i := nget rsl i in
  let wet_i := nget wet i in
  (* lines 119-124 *)
  let is_wet := if n_isnan wet_i then (if ignore_nan then ls_last_i_is_wet st else true)
                else n_truthy wet_i in
  let found_nan := if n_isnan wet_i then (if ignore_nan then ls_found_nan st else true)
                   else ls_found_nan st in
  (* lines 129-130 *)
  let last_i_is_wet := if is_wet && negb (ls_last_i_is_wet st) then true else ls_last_i_is_wet st in
  (* lines 132-133 *)
  if is_wet && last_i_is_wet then
    Ok (mk_lin (ls_baseline st) (ls_last_dry_i st) (ls_last_dry_rsl st) true found_nan)
  (* lines 135-147 *)
  else if last_i_is_wet && negb is_wet then
    let d := ls_last_dry_i st in
    let b := if found_nan then upd_slice d (repeat n_nan (i + 1 - d)) (ls_baseline st)
             else upd_slice d (n_linspace (ls_last_dry_rsl st) rsl_i (i - d + 1)) (ls_baseline st) in
    Ok (mk_lin b i rsl_i false false)
  (* lines 149-157 *)
  else if negb last_i_is_wet && negb is_wet then
    let b := if found_nan then upd i n_nan (ls_baseline st) else upd i rsl_i (ls_baseline st) in
    Ok (mk_lin b i rsl_i false false)
  (* lines 158-160 *)
  else Err RuntimeError.

(** baseline.py:104-161 [_numba_baseline_linear] *)
Definition numba_baseline_linear (rsl wet : list O) (ignore_nan : bool) : res (list O) :=
  let b := upd 0 (nget rsl 0) (repeat zero (length rsl)) in
  do st <- for_range_res (seq 1 (length rsl - 1)) (lin_body rsl wet ignore_nan)
             (mk_lin b 0 (nget rsl 0) false false);
  Ok (ls_baseline st).

(** baseline.py:67-101 [baseline_linear].  Empty input and a too short [wet]
    make numba access memory out of bounds (undefined): [Err OtherError]. *)
Definition baseline_linear (rsl wet : list O) (ignore_nan : bool) : res (list O) :=
  if Nat.eqb (length rsl) 0 then Err OtherError
  else if Nat.ltb (length wet) (length rsl) then Err OtherError
  else numba_baseline_linear rsl wet ignore_nan.

End Baseline.
