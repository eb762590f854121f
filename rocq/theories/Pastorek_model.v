(** * Model of the Pastorek wet antenna functions of /repo/pycomlink/processing/wet_antenna.py *)
From Coq Require Import List ZArith Bool String.
From Verif Require Import Base Num NumList NpOps Libm KR_model.
Import ListNotations.
Local Open Scope nat_scope.

(** [np.linspace(start, stop, num)] for num >= 2: [arange(num) * step + start],
    last element set to [stop]. *)
Definition np_linspace {O : numops} (start stop : O) (k : nat) : list O :=
  let step := n_div (n_sub stop start) (n_ofZ (Z.of_nat (k - 1))) in
  map (fun i => n_add (n_mul (n_ofZ (Z.of_nat i)) step) start) (seq 0 (k - 1)) ++ [stop].

(** index of the interval found by the binary search of [np.interp] on sorted
    abscissae: the last [j <= k] with [xp[j] <= x], 0 if there is none *)
Fixpoint interp_index {O : numops} (xp : list O) (x : O) (k : nat) : nat :=
  match k with
  | 0 => 0
  | S j => if n_leb (get n_nan xp k) x then k else interp_index xp x j
  end.

(** [np.interp] at one point inside the range of [xp] (scipy's linear
    [interp1d] calls it); the retry for a NaN result is omitted, it only
    matters for infinite table values. *)
Definition interp_point {O : numops} (xp fp : list O) (x : O) : O :=
  if n_isnan x then x else
  let j := interp_index xp x (List.length xp - 1) in
  if Nat.eqb j (List.length xp - 1) then get n_nan fp j
  else if n_eqb (get n_nan xp j) x then get n_nan fp j
  else
    let slope := n_div (n_sub (get n_nan fp (j + 1)) (get n_nan fp j)) (n_sub (get n_nan xp (j + 1)) (get n_nan xp j)) in
    n_add (n_mul slope (n_sub x (get n_nan xp j))) (get n_nan fp j).

(** [interp1d(xp, fp, assume_sorted=True, kind="linear")(x)]: ValueError if
    some x lies outside the table *)
Definition interp1d_linear {O : numops} (xp fp : list O) (x : list O) : res (list O) :=
  if existsb (fun v => n_ltb v (get n_nan xp 0)) x then Err ValueError
  else if existsb (fun v => n_ltb (get n_nan xp (List.length xp - 1)) v) x then Err ValueError
  else Ok (map (interp_point xp fp) x).

(** an argument documented as "array-like or scalar" *)
Inductive scalar_or_array (O : numops) := SScalar (x : O) | SArray (l : list O).
Arguments SScalar {O} _.
Arguments SArray {O} _.

Section Pastorek.
Context {O : numops} (L : libm O).
Variable cubic : list O -> list O -> O -> O.

(** wet_antenna.py:377-421 [waa_pastorek_2021].  For a scalar the power is a
    numpy scalar, whose item assignment (line 419) raises TypeError. *)
Definition waa_pastorek_2021 (R : scalar_or_array O) (A_max zeta d : O) : res (list O) :=
  match R with
  | SScalar _ => Err TypeError
  | SArray R =>
    let waa := map (fun r => n_mul A_max (n_sub one (m_exp L (n_mul (n_opp d) (m_pow L r zeta))))) R in
    Ok (mask_fill (map (fun r => n_eqb r zero) R) zero waa)
  end.

(** wet_antenna.py:353-354: the rain attenuations of the look-up table *)
Definition A_rain_table : list O :=
  upd 0 zero (map (m_pow L (n_ofZ 10)) (np_linspace (n_ofZ (-10)) (n_ofZ 3) 100)).

(** wet_antenna.py:301-374 [waa_pastorek_2021_from_A_obs] on a 1-D array and a
    scalar frequency (the decorator is modelled in Wrapper_model.v). *)
Definition waa_pastorek_2021_from_A_obs (A_obs : list O) (f_Hz : O) (pol : string) (L_km A_max zeta d : O) : res (list O) :=
  if existsb (fun x => n_ltb x zero) A_obs then Err ValueError else
  let A_rain := A_rain_table in
  do R <- calc_R_from_A L cubic A_rain L_km (Some [n_div f_Hz (n_ofZ (10 ^ 9))]) (Some (PolStr pol)) None None "ITU_2005" zero;
  do waa <- waa_pastorek_2021 (SArray R) A_max zeta d;
  let A_obs_theoretical := map2 n_add A_rain waa in
  interp1d_linear A_obs_theoretical waa A_obs.
End Pastorek.
