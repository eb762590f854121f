(** * Model of the documented processing chain from total loss to rain rate

    /repo/docs/notebooks/Basic CML processing workflow.ipynb, lines 846-870 of
    the JSON file (the loop over all CMLs; the cells at 702, 726, 765-766 and
    794 do the same step by step): baseline, wet antenna attenuation,
    attenuation, rain rate.  The three pycomlink functions are the models of
    Baseline_model.v, Schleiss_model.v and KR_model.v on one channel; the
    rolling-standard-deviation flags are an argument.  Not modelled: xarray
    alignment, several channels at once. *)
From Coq Require Import List ZArith Bool String.
From Verif Require Import Base Num NumList Libm Baseline_model Schleiss_model KR_model.
Import ListNotations.

Section Chain.
Context {O : numops} (L : libm O).
Variable cubic : list O -> list O -> O -> O.

(** the arguments of calc_R_from_A besides [A] *)
Record kr_args := mk_kr_args {
  kr_len : O; kr_f : option (list O); kr_pol : option pol_arg;
  kr_a : option (coef O); kr_b : option (coef O); kr_approx : string; kr_min : O }.

Definition rain_rate (A : list O) (k : kr_args) : res (list O) :=
  calc_R_from_A L cubic A (kr_len k) (kr_f k) (kr_pol k) (kr_a k) (kr_b k) (kr_approx k) (kr_min k).

(** notebook 859: [cml.trsl - cml.baseline - cml.waa] *)
Definition attenuation_of (trsl baseline waa : list O) : list O := map2 n_sub (map2 n_sub trsl baseline) waa.

(** notebook 865: [A.values[A < 0] = 0] *)
Definition clip (A : list O) : list O := map (fun x => if n_ltb x zero then zero else x) A.

(** notebook 846-870; [clipped] says whether line 865 is present *)
Definition chain (clipped : bool) (trsl wet : list O) (n : nat) (waa_max delta_t tau : O) (k : kr_args) : res (list O) :=
  do b <- baseline_constant trsl wet n;
  do w <- waa_schleiss_2013 trsl b wet waa_max delta_t tau;
  let A := attenuation_of trsl b w in
  rain_rate (if clipped then clip A else A) k.

(** notebook 767-768, the same without wet antenna correction *)
Definition chain_without_waa (clipped : bool) (trsl wet : list O) (n : nat) (k : kr_args) : res (list O) :=
  do b <- baseline_constant trsl wet n;
  let A := map2 n_sub trsl b in
  rain_rate (if clipped then clip A else A) k.
End Chain.
Arguments kr_args : clear implicits.
Arguments mk_kr_args {O}.
