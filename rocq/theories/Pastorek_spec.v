(** * Vocabulary for the Pastorek wet antenna model *)
From Coq Require Import List ZArith Reals.
From Verif Require Import Base Num.
Local Open Scope R_scope.

(** the published formula: C (1 - exp(-d R^zeta)) *)
Definition wet_antenna (A_max zeta d r : R) : R :=
  if Req_EM_T r 0 then 0 else A_max * (1 - exp (- d * Rpower r zeta)).

(** rain rate that causes rain attenuation [x] on a link of length [l] *)
Definition rain_of (a b l x : R) : R := if Req_EM_T x 0 then 0 else Rpower (x / (a * l)) (1 / b).

(** rain attenuations of the look-up table: 0, then log-spaced up to 10^3 *)
Definition table_rain (i : nat) : R := if Nat.eqb i 0 then 0 else Rpower 10 (-10 + INR i * (13 / 99)).

(** a function on real numbers applied to a value that may be missing *)
Definition on_number (g : R -> R) (x : XR) : XR := match (x : xr) with XFin r => XFin (g r) | _ => x end.
