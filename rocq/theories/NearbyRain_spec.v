(** * Vocabulary for the nearby-link rain retrieval *)
From Coq Require Import List ZArith Bool Reals.
From Verif Require Import Base Num Libm.
Import ListNotations.

Section Spec.
Context {O : numops}.
Definition level (pmin pmax : list O) (k : nat) : O :=
  n_div (n_add (get n_nan pmin k) (get n_nan pmax k)) (n_ofZ 2).
(** the mean levels of the dry steps among the last [n] steps up to [t] that are numbers *)
Definition dry_levels (pmin pmax wet : list O) (n t : nat) : list O :=
  map (level pmin pmax)
    (filter (fun k => n_eqb (get n_nan wet k) (n_ofZ 0) && negb (n_isnan (level pmin pmax k)))
       (seq (t + 1 - n) (t + 1 - (t + 1 - n)))).
(** the outlier filter does not hit *)
Definition unfiltered (F : list O) (thr : option O) (t : nat) : Prop :=
  match thr with None => True | Some x => n_leb (get n_nan F t) x = false end.
(** what a power function must satisfy: pow(0, y) = 0 for y > 0 *)
Definition pow_zero (L : libm O) : Prop := forall x y : O, n_eqb x (n_ofZ 0) = true -> n_ltb (n_ofZ 0) y = true ->
  n_eqb (m_pow L x y) (n_ofZ 0) = true.
End Spec.

(** attenuation left after subtracting the wet antenna part, at least 0 *)
Definition rain_attenuation (pref p waa : R) : R := Rmax 0 (pref - p - waa).
