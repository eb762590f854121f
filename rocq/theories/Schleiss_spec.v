(** * Vocabulary for the Schleiss wet antenna attenuation *)
From Coq Require Import List ZArith Reals.
From Verif Require Import Base Num.
Import ListNotations.

Section Spec.
Context {O : numops}.
(** attenuation relative to the baseline *)
Definition atten (rsl baseline : list O) (i : nat) : O := n_sub (get n_nan rsl i) (get n_nan baseline i).
Definition flag_is_one (wet : list O) (i : nat) : Prop := n_eqb (get n_nan wet i) (n_ofZ 1) = true.

(** [x] is a smallest element among the candidates that are numbers, and is
    one of the candidates *)
Definition least_of (cands : list O) (x : O) : Prop :=
  In x cands /\ forall c, In c cands -> n_isnan c = false -> n_leb x c = true.

(** relaxation towards [waa_max] *)
Definition relaxed (prev waa_max delta_t tau : O) : O :=
  n_add prev (n_div (n_mul (n_mul (n_sub waa_max prev) (n_ofZ 3)) delta_t) tau).
End Spec.
