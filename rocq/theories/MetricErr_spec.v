(** * Vocabulary for float64 rain metrics of two series *)
From Coq Require Import List Reals.
Import ListNotations.
Local Open Scope R_scope.

(** the references of corresponding pairs differ by at most [qr], the predictions by at most [qp] *)
Definition pairs_off_by (qr qp : R) : list (R * R) -> list (R * R) -> Prop :=
  Forall2 (fun a b => Rabs (fst b - fst a) <= qr /\ Rabs (snd b - snd a) <= qp).
