(** * Property C115: the chain of the notebook about wet antenna attenuation *)
From Coq Require Import List ZArith Bool String Reals Lra Lia.
From Verif Require Import Base Num NumF64 NumList Libm Libm64 RealSpec Baseline_model Baseline_spec Schleiss_spec KR_model KR_spec
  Chain_model Chain_spec Chain_props Pastorek_spec Leijnse_model LeijnseObs_spec KR_proofs3 ObsChain_model ObsChain_spec ObsChain_proofs.
Import ListNotations.
Local Open Scope nat_scope.
Local Notation length := List.length.

(** Whatever method is used: rain rates are never missing, missing losses give
    rain rate zero. *)
Theorem C115_never_missing : forall (L : libm F64) cubic waa_of (trsl wet : list F64) n (k : kr_args F64) R,
  pow_sane L -> pow_zero L -> plain_coefficients k -> 1 <= n -> length wet = length trsl ->
  (forall bl A w, waa_of trsl bl A = Ok w -> length A = length trsl -> length w = length A) ->
  obs_chain L cubic waa_of trsl wet n k = Ok R ->
  length R = length trsl /\
  forall i, i < length trsl -> nonneg (get n_nan R i) /\
    (missing (get n_nan trsl i) -> n_eqb (get n_nan R i) (n_ofZ 0) = true).
Proof. exact (obs_chain_never_missing F64sem). Qed.
Print Assumptions C115_never_missing.

(** the Schleiss method, which the other notebook uses, is one of them *)
Theorem C115_schleiss_never_missing : forall (L : libm F64) cubic (trsl wet : list F64) n m dt tau (k : kr_args F64) R,
  pow_sane L -> pow_zero L -> plain_coefficients k -> 1 <= n -> length wet = length trsl ->
  schleiss_chain L cubic trsl wet n m dt tau k = Ok R ->
  length R = length trsl /\
  forall i, i < length trsl -> nonneg (get n_nan R i) /\
    (missing (get n_nan trsl i) -> n_eqb (get n_nan R i) (n_ofZ 0) = true).
Proof. exact schleiss_never_missing. Qed.
Print Assumptions C115_schleiss_never_missing.

(** the run of [C100_case]: NaN in step 4 there, 0 here *)
Example C115_case :
  match schleiss_chain F64demo no_cubic [#10; #10; #12; #20; fNaN; #14; #30] [#0; #0; #1; #1; #1; #1; #0] 1 #2 #1 #6 demo_args with
  | Ok R => f_same_list R [#0; #0; #1; f_div #289 #4; #0; #4; #0] | Err _ => false end = true.
Proof. vm_compute. reflexivity. Qed.

Local Open Scope R_scope.

(** The Pastorek method: the rain rate is one nondecreasing function [h] of
    loss minus baseline, zero below the baseline, at most the rain rate without
    correction, and the true one at the nodes of the table. *)
Theorem C115_pastorek_chain_exact : forall cubic (f l A_max zeta d R_min : R) pol,
  exact_cubic cubic -> 1 <= f / 10 ^ 9 <= 100 -> horizontal pol \/ vertical pol ->
  0 < l -> 0 < A_max -> 0 < zeta -> 0 < d ->
  exists (a b amax : R) (h : R -> R),
    a_b cubic [XFin (f / 10 ^ 9) : XR] (PolStr pol) "ITU_2005" = Ok ([XFin a : XR], [XFin b : XR]) /\ 0 < a /\ 0 < b /\
    1000 <= amax /\
    (forall x, x <= 0 -> h x = 0) /\
    (forall x y, x <= y -> y <= amax -> h x <= h y) /\
    (forall x, 0 <= x <= amax -> 0 <= h x <= rain_of a b l x) /\
    (forall i, (i < 100)%nat -> let r := rain_of a b l (table_rain i) in R_min <= r -> h (table_rain i + wet_antenna A_max zeta d r) = r) /\
    forall (trsl wet : list XR) n bl,
      (1 <= n)%nat -> length wet = length trsl -> baseline_constant trsl wet n = Ok bl ->
      let run := pastorek_chain XRm cubic trsl wet n (XFin f : XR) pol (XFin l : XR) (XFin A_max : XR) (XFin zeta : XR) (XFin d : XR) (XFin R_min : XR) in
      ((exists i, (i < length trsl)%nat /\ n_ltb (XFin amax : XR) (atten trsl bl i) = true) -> run = Err ValueError) /\
      ((forall i, (i < length trsl)%nat -> n_ltb (XFin amax : XR) (atten trsl bl i) = false) ->
        exists R, run = Ok R /\ length R = length trsl /\
        forall i, (i < length trsl)%nat -> get n_nan R i =
          match (atten trsl bl i : xr) with XFin x => (XFin (h x) : XR) | _ => (XFin 0 : XR) end).
Proof. exact pastorek_chain_exact. Qed.
Print Assumptions C115_pastorek_chain_exact.

(** The Leijnse method: rain rates are those of a point of the table polygon. *)
Theorem C115_leijnse_chain_exact : forall search, bracketing search ->
  forall cubic f l T gamma delta na la pol R_min,
  exact_cubic cubic -> 1 <= f / 10 ^ 9 <= 100 -> horizontal pol \/ vertical pol ->
  0 < l -> 0 < T <= 339 -> 0 < fst na -> 0 <= snd na -> 0 <= la ->
  exists (a b : R),
    a_b cubic [XFin (f / 10 ^ 9) : XR] (PolStr pol) "ITU_2005" = Ok ([XFin a : XR], [XFin b : XR]) /\ 0 < a /\ 0 < b /\
    let waa i := waa_formula (rain_of a b l (table_rain i)) f T gamma delta na la in
    let obs i := table_rain i + waa i in
    0 <= obs 99%nat -> forall (trsl wet : list XR) n bl,
      (1 <= n)%nat -> length wet = length trsl -> baseline_constant trsl wet n = Ok bl ->
      let run := leijnse_chain search cubic trsl wet n f pol l T gamma delta na la R_min in
      ((exists i, (i < length trsl)%nat /\ n_ltb (XFin (obs 99%nat) : XR) (atten trsl bl i) = true) -> run = Err ValueError) /\
      ((forall i, (i < length trsl)%nat -> n_ltb (XFin (obs 99%nat) : XR) (atten trsl bl i) = false) ->
        exists R, run = Ok R /\ length R = length trsl /\
        forall i, (i < length trsl)%nat ->
          match (atten trsl bl i : xr) with
          | XFin x => exists y, on_polygon obs waa 99 (Rmax x 0) y /\ get n_nan R i = (XFin (above R_min (rain_of a b l (Rmax (x - y) 0))) : XR)
          | _ => get n_nan R i = (XFin 0 : XR)
          end).
Proof. exact leijnse_chain_exact. Qed.
Print Assumptions C115_leijnse_chain_exact.

(** A 20 GHz link of 10 km with baseline 50: no rain at 50, 40 and a missing
    value, some (at most that without correction) at 60. *)
Example C115_case_pastorek :
  exists a b r, 0 < a /\ 0 < b /\ 0 <= r <= rain_of a b 10 10 /\
  pastorek_chain XRm exact_spline [XFin 50 : XR; XFin 60 : XR; XFin 40 : XR; XNaN : XR] [XFin 0 : XR; XFin 1 : XR; XFin 1 : XR; XFin 1 : XR] 1
    (XFin (20 * 10 ^ 9) : XR) "H" (XFin 10 : XR) (XFin 14 : XR) (XFin 0.55 : XR) (XFin 0.1 : XR) (XFin 0.1 : XR)
  = Ok [XFin 0 : XR; XFin r : XR; XFin 0 : XR; XFin 0 : XR].
Proof. exact pastorek_chain_case. Qed.
