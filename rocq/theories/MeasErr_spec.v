(** * Measurement errors of signal levels *)
From Coq Require Import List Reals.
From Verif Require Import Base Num RealSpec.
Import ListNotations.
Local Open Scope R_scope.

(** two records of the same length that differ by at most [q] in each sample, as a record and its quantised version *)
Definition within (q : R) (T T' : list R) : Prop :=
  length T' = length T /\ forall i, (i < length T)%nat -> Rabs (rget T' i - rget T i) <= q.

(** both missing, or numbers that differ by at most [q] *)
Definition near (q : R) (x y : XR) : Prop :=
  (x = XNaN /\ y = XNaN) \/ exists r s, x = XFin r /\ y = XFin s /\ Rabs (s - r) <= q.
