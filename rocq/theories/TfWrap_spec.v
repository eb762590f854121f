(** * Vocabulary for data sets with predictions *)
From Coq Require Import List Bool String.
From Verif Require Import Base Num NumList TfInfer_model.
Import ListNotations.
Local Notation length := List.length.

Section Spec.
Context {O : numops}.
(** the first variable called [v] *)
Definition variable (ds : dataset O) (v : string) : option (list (list O)) :=
  option_map snd (find (fun p => (fst p =? v)%string) (ds_vars ds)).
(** one row per link, one value per time step *)
Definition well_shaped (ds : dataset O) (m : list (list O)) : Prop :=
  length m = length (ds_ids ds) /\ forall r, In r m -> length r = ds_time ds.
(** value of variable matrix [m] for link number [j] at step [t] *)
Definition at_link (m : list (list O)) (j t : nat) : O := nget (get [] m j) t.
End Spec.
