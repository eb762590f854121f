(** * Levels in float64 *)
From Coq Require Import Reals List.
From Verif Require Import Base Num NumF64 HaversineFloat_spec.
Local Open Scope R_scope.

(** a missing level, or a number of moderate size *)
Definition level (M : R) (x : F64) : Prop := n_isnan x = true \/ exists r, is_num x r /\ Rabs r <= M.
