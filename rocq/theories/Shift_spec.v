(** * A constant offset of signal levels *)
From Coq Require Import List ZArith Bool Reals.
From Verif Require Import Base Num RealSpec.
Import ListNotations.

(** every value [x] replaced by [x + c]; NaN stays NaN *)
Definition off (c : R) (l : list XR) : list XR := map (fun x : XR => n_add x (XFin c : XR)) l.
(** link [i] gets the offset [c_i] *)
Definition offs (c : list R) (m : list (list XR)) : list (list XR) := map2 off c m.
