(** * What the coverage mask should be *)
From Coq Require Import List Bool Reals.
From Verif Require Import Base Coverage_model.
Local Open Scope R_scope.

(** squared distance of two points *)
Definition sqdist (p q : R * R) : R := (fst p - fst q) * (fst p - fst q) + (snd p - snd q) * (snd p - snd q).
(** point at fraction [t] of a segment *)
Definition on_segment (l : (R * R) * (R * R)) (t : R) : R * R :=
  (fst (fst l) + t * (fst (snd l) - fst (fst l)), snd (fst l) + t * (snd (snd l) - snd (fst l))).
(** [p] is at most [d] away from the segment; the buffer of a line is empty for d <= 0 *)
Definition near (d : R) (l : (R * R) * (R * R)) (p : R * R) : Prop :=
  0 < d /\ exists t, 0 <= t <= 1 /\ sqdist p (on_segment l t) <= d * d.

(** well-formed array and its element [i, j] *)
Definition arr_ok {A} (a : array2 A) : Prop := (length (a_flat a) = a_rows a * a_cols a)%nat.
Definition elt {A} (d : A) (a : array2 A) (i j : nat) : A := get d (a_flat a) (i * a_cols a + j)%nat.
Definition link_of {N} (c : cml N) : (N * N) * (N * N) := ((lon_a c, lat_a c), (lon_b c, lat_b c)).
