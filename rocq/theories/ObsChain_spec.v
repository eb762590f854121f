(** * Vocabulary for the chain with rain dependent wet antenna attenuation *)
From Coq Require Import Reals.
Local Open Scope R_scope.

(** rain rates below [R_min] are set to zero *)
Definition above (R_min r : R) : R := if Rlt_dec r R_min then 0 else r.
