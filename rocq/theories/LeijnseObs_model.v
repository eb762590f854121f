(** * Model of [waa_leijnse_2008_from_A_obs], /repo/pycomlink/processing/wet_antenna.py

    Exact arithmetic, as Leijnse_model.v.  The rain rates of the table are
    finite numbers there; the model returns [OtherError] if they were not,
    which the theorems show not to happen. *)
From Coq Require Import List ZArith Bool String Reals.
From Verif Require Import Base Num NumList Libm KR_model Pastorek_model Leijnse_model.
Import ListNotations.

Fixpoint finite_list (l : list XR) : option (list R) :=
  match l with
  | [] => Some []
  | x :: t => match (x : xr), finite_list t with XFin r, Some rs => Some (r :: rs) | _, _ => None end
  end.

Section Obs.
(** the search of numpy's [np.interp] for the interval that contains a point.
    The table need not be sorted here (the code says [assume_sorted=True]), so
    it is left open which of several intervals is found. *)
Variable search : list XR -> XR -> nat.
Variable cubic : list XR -> list XR -> XR -> XR.

(** [np.interp] at one point inside the range of the table, as [interp_point]
    of Pastorek_model.v but for [search] *)
Definition interp_at (xp fp : list XR) (x : XR) : XR :=
  if n_isnan x then x else
  let j := search xp x in
  if Nat.eqb j (List.length xp - 1) then get n_nan fp j
  else if n_eqb (get n_nan xp j) x then get n_nan fp j
  else
    let slope := n_div (n_sub (get n_nan fp (j + 1)) (get n_nan fp j)) (n_sub (get n_nan xp (j + 1)) (get n_nan xp j)) in
    n_add (n_mul slope (n_sub x (get n_nan xp j))) (get n_nan fp j).

(** [scipy.interpolate.interp1d(xp, fp, assume_sorted=True, kind="linear")(x)] *)
Definition interp1d_with (xp fp x : list XR) : res (list XR) :=
  if existsb (fun v => n_ltb v (get n_nan xp 0)) x then Err ValueError
  else if existsb (fun v => n_ltb (get n_nan xp (List.length xp - 1)) v) x then Err ValueError
  else Ok (map (interp_at xp fp) x).

(** wet_antenna.py:112-203 [waa_leijnse_2008_from_A_obs] on a 1-D array and a
    scalar frequency (the decorator is modelled in Wrapper_model.v).  Lines
    174-175 test for negative values, 183-184 build the table of rain
    attenuations, 186-188 the rain rates, 189-197 the wet antenna attenuation,
    198-203 the look-up. *)
Definition waa_leijnse_2008_from_A_obs (A_obs : list XR) (f_Hz : R) (pol : string) (L_km : R)
  (T_K gamma delta : R) (n_antenna : cplx) (l_antenna : R) : res (list XR) :=
  if existsb (fun x : XR => n_ltb x (zero : XR)) A_obs then Err ValueError else
  let A_rain := A_rain_table XRm in
  do Rr <- calc_R_from_A XRm cubic A_rain (XFin L_km : XR) (Some [n_div (XFin f_Hz : XR) (n_ofZ (10 ^ 9))])
             (Some (PolStr pol)) None None "ITU_2005" (zero : XR);
  match finite_list Rr with
  | None => Err OtherError
  | Some rs =>
    do waa <- waa_leijnse_2008 (AArray rs) (AScalar f_Hz) T_K gamma delta n_antenna l_antenna;
    let waa := map (fun r => (XFin r : XR)) waa in
    let A_obs_theoretical := map2 n_add A_rain waa in
    interp1d_with A_obs_theoretical waa A_obs
  end.
End Obs.
