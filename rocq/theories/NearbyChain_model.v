(** * Model of the nearby-link processing chain

    /repo/docs/notebooks/Nearby link approach processing example.ipynb, lines
    642-651, 747, 767 and 856-868 of the JSON file: classification, reference
    level, corrected levels, rain rate.  [pmin] and [pmax] have one row per
    link (one channel); per-link calls stand for the broadcasting of the xarray
    wrapper (Wrapper_model.v).  The filling of gaps and the 15 minute minima and
    maxima at the start of the notebook are in NearbyNb_model.v. *)
From Coq Require Import List ZArith Bool String.
From Verif Require Import Base Num NumList Libm KR_model NearbyRain_model NearbyWetdry_model.
Import ListNotations.
Local Open Scope nat_scope.
Local Notation length := List.length.

Section NearbyChain.
Context {O : numops} (L : libm O).
Variable cubic : list O -> list O -> O -> O.

(** parameters of the four calls *)
Record nearby_par := mk_nearby_par {
  np_radius : O; np_thr_P : O; np_thr_PL : O; np_min_links : nat; np_interval : nat; np_timeperiod : nat; np_min_hours : nat;
  np_average_dry : nat; np_min_periods : nat; np_waa_max : O; np_alpha : O; np_F_threshold : option O }.

(** the links: lengths, frequencies in Hz, polarisations and distances *)
Record network := mk_network { nw_len : list O; nw_freq : list O; nw_pol : list string; nw_dist : distances O }.

(** notebook 747, 767, 856-868 for one link *)
Definition nearby_link (p : nearby_par) (pmin pmax wet F : list O) (len freq : O) (pol : string) : res (list O) :=
  do pref <- nearby_determine_reference_level pmin pmax wet (np_average_dry p) (np_min_periods p);
  let c := nearby_correct_received_signals pmin pmax wet pref in
  nearby_rainfall_retrival L cubic pref (fst c) (snd c) F len (Some [n_div freq (n_ofZ (10 ^ 9))]) (Some (PolStr pol)) None None "ITU_2005"
    (np_waa_max p) (np_alpha p) (np_F_threshold p).

(** notebook 642-868 *)
Definition nearby_chain (p : nearby_par) (nw : network) (T : nat) (pmin pmax : list (list O)) : res (list (list O)) :=
  do wf <- nearby_wetdry T pmin (nw_len nw) (nw_dist nw) (np_radius p) (np_thr_P p) (np_thr_PL p) (np_min_links p) (np_interval p) (np_timeperiod p) (np_min_hours p);
  mapM (fun i => nearby_link p (get [] pmin i) (get [] pmax i) (get [] (fst wf) i) (get [] (snd wf) i)
                   (get n_nan (nw_len nw) i) (get n_nan (nw_freq nw) i) (get EmptyString (nw_pol nw) i)) (seq 0 (length pmin)).
End NearbyChain.
Arguments nearby_par : clear implicits.
Arguments mk_nearby_par {O}.
Arguments network : clear implicits.
Arguments mk_network {O}.
