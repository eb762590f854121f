(** * The pairs to be compared by Validator.calc_stats, stated without the code *)
From Coq Require Import List ZArith Bool.
From Verif Require Import Base Num.
Import ListNotations.
Local Open Scope Z_scope.

(** all pairs of a reference value and a CML value of the same second (the time of
    the reference is a full second), both measured *)
Definition compared {O : numops} (reference cml : list (Z * O)) : list (O * O) :=
  map (fun p => (snd (fst p), snd (snd p)))
    (filter (fun p => (fst (fst p) =? fst (snd p) / 1000000000 * 1000000000) && negb (n_isnan (snd (fst p))) && negb (n_isnan (snd (snd p)))) (list_prod reference cml)).
