(** * Model of the Leijnse wet antenna formula and of the permittivity of water

    /repo/pycomlink/processing/wet_antenna.py, in exact arithmetic: complex
    numbers are pairs of reals, rounding is not modelled.  Division by zero is
    Coq's total division; theorems that divide assume a non-zero divisor. *)
From Coq Require Import List Reals Bool.
From Verif Require Import Base.
Import ListNotations.
Local Open Scope R_scope.

Definition cplx : Type := (R * R)%type.
Definition cR (x : R) : cplx := (x, 0).
Definition cadd (u v : cplx) : cplx := (fst u + fst v, snd u + snd v).
Definition copp (u : cplx) : cplx := (- fst u, - snd u).
Definition csub (u v : cplx) : cplx := cadd u (copp v).
Definition cmul (u v : cplx) : cplx := (fst u * fst v - snd u * snd v, fst u * snd v + snd u * fst v).
Definition cabs (u : cplx) : R := sqrt (fst u * fst u + snd u * snd u).
Definition cinv (u : cplx) : cplx :=
  let n := fst u * fst u + snd u * snd u in (fst u / n, - snd u / n).
Definition cdiv (u v : cplx) : cplx := cmul u (cinv v).
(** [np.exp] on complex numbers *)
Definition cexp (u : cplx) : cplx := (exp (fst u) * cos (snd u), exp (fst u) * sin (snd u)).
(** [np.sqrt] on complex numbers: the root in the right half plane *)
Definition csqrt (u : cplx) : cplx :=
  let m := cabs u in
  (sqrt ((m + fst u) / 2), if Rle_dec 0 (snd u) then sqrt ((m - fst u) / 2) else - sqrt ((m - fst u) / 2)).
(** [1j * x] *)
Definition cj (x : R) : cplx := (0, x).

(** wet_antenna.py:424-462 [eps_water] at one frequency *)
Definition eps_water (f_Hz T_K : R) : cplx :=
  let f_GHz := f_Hz * (1 / 10 ^ 9) in
  let teta := 1 - 300 / T_K in
  let e0 := 77.66 - 103.3 * teta in
  let e1 := 0.0671 * e0 in
  let f1 := 20.2 + 146.4 * teta + 316 * teta * teta in
  let e2 := 3.52 + 7.52 * teta in
  let f2 := 39.8 * f1 in
  cadd (cadd (cR e2) (cdiv (cR (e1 - e2)) (csub (cR 1) (cj (f_GHz / f2)))))
       (cdiv (cR (e0 - e1)) (csub (cR 1) (cj (f_GHz / f1)))).

(** wet_antenna.py:256-293: the formula at one rain rate and one frequency,
    before line 296.  [R ** delta] of 0 is 0 for delta > 0. *)
Definition waa_formula (r f_Hz T_K gamma delta : R) (n_antenna : cplx) (l_antenna : R) : R :=
  let n_air := cR 1 in
  let c := 299792458 in
  let l := gamma * (if Req_EM_T r 0 then 0 else Rpower r delta) in
  let n_water := csqrt (eps_water f_Hz T_K) in
  let expo := cj (2 * PI * f_Hz / c) in
  let sa := cmul n_antenna (cR l_antenna) in
  let sw := cmul n_water (cR l) in
  let x1 := cmul (cmul (cmul (cadd n_air n_water) (cadd n_water n_antenna)) (cadd n_antenna n_air))
              (cexp (cmul (copp expo) (cadd sa sw))) in
  let x2 := cmul (cmul (cmul (csub n_air n_water) (csub n_water n_antenna)) (cadd n_antenna n_air))
              (cexp (cmul (copp expo) (csub sa sw))) in
  let x3 := cmul (cmul (cmul (cadd n_air n_water) (csub n_water n_antenna)) (csub n_antenna n_air))
              (cexp (cmul expo (csub sa sw))) in
  let x4 := cmul (cmul (cmul (csub n_air n_water) (cadd n_water n_antenna)) (csub n_antenna n_air))
              (cexp (cmul expo (cadd sa sw))) in
  let y1 := cmul (cmul (cadd n_air n_antenna) (cadd n_air n_antenna)) (cexp (cmul (cmul (copp expo) n_antenna) (cR l_antenna))) in
  let y2 := cmul (copp (cmul (csub n_air n_antenna) (csub n_air n_antenna))) (cexp (cmul (cmul expo n_antenna) (cR l_antenna))) in
  let num := cadd (cadd (cadd x1 x2) x3) x4 in
  let den := cmul (cmul (cR 2) n_water) (cadd y1 y2) in
  10 * (ln (cabs (cdiv num den) ^ 2) / ln 10).

(** the denominator of the formula: [2 * n_water * (y1 + y2)] *)
Definition waa_den (f_Hz T_K : R) (n_antenna : cplx) (l_antenna : R) : cplx :=
  let n_air := cR 1 in
  let n_water := csqrt (eps_water f_Hz T_K) in
  let expo := cj (2 * PI * f_Hz / 299792458) in
  let y1 := cmul (cmul (cadd n_air n_antenna) (cadd n_air n_antenna)) (cexp (cmul (cmul (copp expo) n_antenna) (cR l_antenna))) in
  let y2 := cmul (copp (cmul (csub n_air n_antenna) (csub n_air n_antenna))) (cexp (cmul (cmul expo n_antenna) (cR l_antenna))) in
  cmul (cmul (cR 2) n_water) (cadd y1 y2).

(** an argument documented as "array-like or scalar" *)
Inductive arg := AScalar (x : R) | AArray (l : list R).

(** wet_antenna.py:206-298 [waa_leijnse_2008]: broadcasting of [R] and [f_Hz]
    and the assignment of line 296.  For two scalars the result is a numpy
    scalar, whose item assignment raises TypeError.  A scalar [R] with an
    array [f_Hz]: the mask is a numpy bool, selecting everything or nothing. *)
Definition waa_leijnse_2008 (Rr : arg) (f_Hz : arg) (T_K gamma delta : R) (n_antenna : cplx) (l_antenna : R) : res (list R) :=
  let w r f := waa_formula r f T_K gamma delta n_antenna l_antenna in
  let masked r x := if Req_EM_T r 0 then 0 else x in
  match Rr, f_Hz with
  | AScalar r, AScalar f => Err TypeError
  | AArray rs, AScalar f => Ok (map (fun r => masked r (w r f)) rs)
  | AScalar r, AArray fs => Ok (map (fun f => masked r (w r f)) fs)
  | AArray rs, AArray fs =>
    match fs with
    | [f] => Ok (map (fun r => masked r (w r f)) rs)
    | _ => if Nat.eqb (length rs) (length fs) then Ok (map2 (fun r f => masked r (w r f)) rs fs)
           else if Nat.eqb (length rs) 1 then Err IndexError (* mask of length 1 on an array of another length *)
           else Err ValueError
    end
  end.
