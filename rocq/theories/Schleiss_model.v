(** * Model of waa_schleiss_2013, /repo/pycomlink/processing/wet_antenna.py *)
From Coq Require Import List ZArith Bool.
From Verif Require Import Base Num NumList.
Import ListNotations.

Section Schleiss.
Context {O : numops}.

(** wet_antenna.py:55-57, the third candidate of the minimum.  numba's default
    error model raises ZeroDivisionError for a float division by zero. *)
Definition waa_step (prev waa_max delta_t tau : O) : res O :=
  if n_eqb tau zero then Err ZeroDivisionError
  else Ok (n_add prev (n_div (n_mul (n_mul (n_sub waa_max prev) (n_ofZ 3)) delta_t) tau)).

(** wet_antenna.py:53-59, loop body.  [wet[i] == True] compares with 1.0.
    numba's [min] of several floats folds [v if v < acc else acc]. *)
Definition schleiss_body (A wet : list O) (waa_max delta_t tau : O) (i : nat) (waa : list O) : res (list O) :=
  if n_eqb (nget wet i) one then
    do s <- waa_step (nget waa (i - 1)) waa_max delta_t tau;
    Ok (upd i (py_min (py_min (nget A i) waa_max) s) waa)
  else Ok (upd i (py_min (nget A i) waa_max) waa).

(** wet_antenna.py:28-60 [_numba_waa_schleiss_2013] *)
Definition numba_waa_schleiss_2013 (rsl baseline wet : list O) (waa_max delta_t tau : O) : res (list O) :=
  let waa := repeat zero (length rsl) in
  let A := map2 n_sub rsl baseline in
  for_range_res (seq 1 (length rsl - 1)) (schleiss_body A wet waa_max delta_t tau) waa.

(** wet_antenna.py:63-109 [waa_schleiss_2013] on 1-D arrays (the decorator is
    modelled in Wrapper_model.v); inputs are already float64.  Arrays of
    different lengths are outside the model: [Err OtherError]. *)
Definition waa_schleiss_2013 (rsl baseline wet : list O) (waa_max delta_t tau : O) : res (list O) :=
  if Nat.eqb (length baseline) (length rsl) && Nat.eqb (length wet) (length rsl) then
    numba_waa_schleiss_2013 rsl baseline wet waa_max delta_t tau
  else Err OtherError.
End Schleiss.
