(** * Levels for which rounding in baseline_linear is harmless *)
From Coq Require Import List ZArith Bool.
From Verif Require Import Base Num NumF64.
Local Open Scope nat_scope.

(** at most 2^53 in absolute value (and not NaN) *)
Definition moderate (x : F64) : Prop := n_leb (n_ofZ (- 2 ^ 53)) x = true /\ n_leb x (n_ofZ (2 ^ 53)) = true.
(** equal, or at least 2^-53 apart *)
Definition apart (x y : F64) : Prop := n_eqb x y = true \/ n_leb (n_div (n_ofZ 1) (n_ofZ (2 ^ 53))) (n_abs (n_sub x y)) = true.
