(** * Vocabulary for the permittivity of water *)
From Coq Require Import Reals.
Local Open Scope R_scope.

(** Liebe et al. 1991: permittivity at frequency 0 and its limit at infinite
    frequency *)
Definition static_permittivity (T : R) : R := 77.66 - 103.3 * (1 - 300 / T).
Definition optical_permittivity (T : R) : R := 3.52 + 7.52 * (1 - 300 / T).

(** the double Debye model: relaxation at [relaxation T] GHz and at 39.8 times
    that frequency; [intermediate_permittivity] is the level between the two *)
Definition relaxation (T : R) : R := let th := 300 / T - 1 in 20.2 - 146.4 * th + 316 * th ^ 2.
Definition intermediate_permittivity (T : R) : R := 0.0671 * static_permittivity T.
Definition debye_real (T g : R) : R :=
  let p := intermediate_permittivity T - optical_permittivity T in
  let q := static_permittivity T - intermediate_permittivity T in
  let a := g / (39.8 * relaxation T) in let b := g / relaxation T in
  optical_permittivity T + p / (1 + a ^ 2) + q / (1 + b ^ 2).
Definition debye_loss (T g : R) : R :=
  let p := intermediate_permittivity T - optical_permittivity T in
  let q := static_permittivity T - intermediate_permittivity T in
  let a := g / (39.8 * relaxation T) in let b := g / relaxation T in
  p * a / (1 + a ^ 2) + q * b / (1 + b ^ 2).
