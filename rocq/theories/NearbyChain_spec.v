(** * Vocabulary for the nearby-link processing chain *)
From Coq Require Import List ZArith Bool String.
From Verif Require Import Base Num Libm KR_model KR_spec NearbyWetdry_model NearbyWetdry_spec NearbyChain_model.
Import ListNotations.
Local Open Scope nat_scope.
Local Notation length := List.length.

Section Spec.
Context {O : numops}.

(** consistent sizes and windows that fit into the record *)
Definition record_ok (p : nearby_par O) (nw : network O) (T : nat) (pmin pmax : list (list O)) : Prop :=
  call_ok T pmin (nw_len nw) (nw_dist nw) (np_radius p) (np_interval p) (np_timeperiod p) (np_min_hours p) /\
  length pmax = length pmin /\ (forall i, i < length pmin -> length (get [] pmax i) = T) /\
  1 <= np_min_periods p <= np_average_dry p /\ np_average_dry p <= T.

(** two records agree in the first [s] steps *)
Definition same_start (s : nat) (m m' : list (list O)) : Prop :=
  length m = length m' /\ forall i t, i < length m -> t < s -> cell m i t = cell m' i t.

(** every link has a frequency and polarisation with usable coefficients *)
Definition links_ok (cubic : list O -> list O -> O -> O) (nw : network O) (n : nat) : Prop := forall i, i < n ->
  exists a b, a_b cubic [n_div (get n_nan (nw_freq nw) i) (n_ofZ (10 ^ 9))] (PolArr [get EmptyString (nw_pol nw) i]) "ITU_2005" = Ok ([a], [b]) /\
    positive (n_mul a (get n_nan (nw_len nw) i)) /\ finite (n_mul a (get n_nan (nw_len nw) i)) /\ positive b /\ positive (n_div (n_ofZ 1) b).

(** the power of NaN to a positive exponent is NaN *)
Definition pow_nan (L : libm O) : Prop := forall x y : O, n_isnan x = true -> positive y -> n_isnan (m_pow L x y) = true.

(** wet antenna attenuation not negative, [0 <= alpha <= 1] *)
Definition par_ok (p : nearby_par O) : Prop :=
  nonneg (np_waa_max p) /\ nonneg (np_alpha p) /\ n_leb (np_alpha p) (n_ofZ 1) = true.
End Spec.
