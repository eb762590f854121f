(** * Vocabulary: two networks of links compared at one link *)
From Coq Require Import List ZArith Bool Arith Permutation.
From Verif Require Import Base Num Median NearbyWetdry_model NearbyWetdry_spec.
Import ListNotations.
Local Open Scope nat_scope.

Section Spec.
Context {O : numops}.

(** equal as numbers (0 and -0 are) or both NaN *)
Definition same_number (a b : O) : Prop :=
  (n_isnan a = true /\ n_isnan b = true) \/ n_eqb a b = true.

(** signal level series and length of a link *)
Definition link_data (pmin : list (list O)) (lens : list O) (j : nat) : list O * O := (get [] pmin j, get n_nan lens j).

(** Link [i] of the first network and link [i'] of the second have the same
    data, and so have their neighbours, in any order. *)
Definition same_surroundings (pmin : list (list O)) (lens : list O) (d : distances O) (radius : O) (i : nat)
  (pmin' : list (list O)) (lens' : list O) (d' : distances O) (radius' : O) (i' : nat) : Prop :=
  link_data pmin lens i = link_data pmin' lens' i' /\
  Permutation (map (link_data pmin lens) (neighbours d radius (length pmin) i))
              (map (link_data pmin' lens') (neighbours d' radius' (length pmin') i')).

(** the network with its links listed in another order: link [k] of the new
    network is link [get 0 p k] of the old one *)
Definition reorder {A} (z : A) (p : list nat) (l : list A) : list A := map (get z l) p.
Definition reorder_square (p : list nat) (m : list (list O)) : list (list O) := map (fun i => reorder n_nan p (get [] m i)) p.
Definition reorder_distances (p : list nat) (d : distances O) : distances O :=
  {| a_to_all_a := reorder_square p (a_to_all_a d); a_to_all_b := reorder_square p (a_to_all_b d);
     b_to_all_a := reorder_square p (b_to_all_a d); b_to_all_b := reorder_square p (b_to_all_b d) |}.
End Spec.
