(** * Change of units *)
From Coq Require Import List String Reals.
From Verif Require Import Base Num TfInfer_model.
Import ListNotations.

(** every value [x] of variable [v] becomes [a v * x + b v] *)
Definition change_units (a b : string -> R) (ds : dataset XR) : dataset XR :=
  {| ds_ids := ds_ids ds; ds_time := ds_time ds;
     ds_vars := map (fun p => (fst p, map (map (fun x => n_add (n_mul (XFin (a (fst p)) : XR) x) (XFin (b (fst p)) : XR))) (snd p))) (ds_vars ds) |}.
