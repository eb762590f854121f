(** * Model of the processing chain of the notebook about wet antenna attenuation

    /repo/docs/notebooks/Wet antenna attenuation.ipynb, lines 574-613 of the
    JSON file (418-448 do the same without the rain rate): constant baseline,
    wet antenna attenuation from the observed attenuation, rain rate.  One
    channel; the flags are an argument; xarray alignment is not modelled. *)
From Coq Require Import List ZArith Bool String Reals.
From Verif Require Import Base Num NumList Libm Baseline_model Schleiss_model KR_model Chain_model Pastorek_model Leijnse_model LeijnseObs_model.
Import ListNotations.

Section ObsChain.
Context {O : numops} (L : libm O).
Variable cubic : list O -> list O -> O -> O.

(** notebook 583 and 611, [A.where(A >= 0, 0)]: a missing value is not [>= 0]
    and is replaced as well *)
Definition where_nonneg (A : list O) : list O := map (fun x => if n_leb zero x then x else zero) A.

(** notebook 576-613 for one method; [waa_of] is the call in lines 585-590,
    592-598 or 600-607, given total loss, baseline and observed attenuation *)
Definition obs_chain (waa_of : list O -> list O -> list O -> res (list O)) (trsl wet : list O) (n : nat) (k : kr_args O) : res (list O) :=
  do b <- baseline_constant trsl wet n;
  let A := where_nonneg (map2 n_sub trsl b) in
  do w <- waa_of trsl b A;
  let A_rain := where_nonneg (map2 n_sub (map2 n_sub trsl b) w) in
  rain_rate L cubic A_rain k.

(** link data as passed in lines 594-597 and 613 *)
Definition link_args (f_Hz : O) (pol : string) (L_km R_min : O) : kr_args O :=
  mk_kr_args L_km (Some [n_div f_Hz (n_ofZ (10 ^ 9))]) (Some (PolStr pol)) None None "ITU_2005" R_min.

Definition pastorek_chain (trsl wet : list O) (n : nat) (f_Hz : O) (pol : string) (L_km A_max zeta d R_min : O) : res (list O) :=
  obs_chain (fun _ _ A => waa_pastorek_2021_from_A_obs L cubic A f_Hz pol L_km A_max zeta d) trsl wet n (link_args f_Hz pol L_km R_min).

Definition schleiss_chain (trsl wet : list O) (n : nat) (waa_max delta_t tau : O) (k : kr_args O) : res (list O) :=
  obs_chain (fun trsl b _ => waa_schleiss_2013 trsl b wet waa_max delta_t tau) trsl wet n k.
End ObsChain.

(** exact arithmetic, as LeijnseObs_model.v *)
Definition leijnse_chain (search : list XR -> XR -> nat) (cubic : list XR -> list XR -> XR -> XR)
  (trsl wet : list XR) (n : nat) (f_Hz : R) (pol : string) (L_km : R)
  (T_K gamma delta : R) (n_antenna : cplx) (l_antenna : R) (R_min : R) : res (list XR) :=
  obs_chain XRm cubic (fun _ _ A => waa_leijnse_2008_from_A_obs search cubic A f_Hz pol L_km T_K gamma delta n_antenna l_antenna)
    trsl wet n (link_args (XFin f_Hz : XR) pol (XFin L_km : XR) (XFin R_min : XR)).
