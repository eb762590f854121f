(** * Model of the MLP classification in docs/notebooks/Wet-dry classification methods.ipynb

    Lines of the JSON file.  Simplified: one CML with two channels, whose flags are
    broadcast to both channels. *)
From Coq Require Import List ZArith Bool String.
From Verif Require Import Base Num NumList Mlp_model Baseline_model.
Import ListNotations.
Local Open Scope nat_scope.
Local Notation length := List.length.

Section M.
Context {O : numops}.
Variable predict : string -> list O -> res (O * O).
(** one row of [np.argmax(mlp_out, axis=1)]: the first maximum, where numpy lets
    the first NaN win *)
Definition np_argmax2 (p : O * O) : nat :=
  if n_isnan (fst p) then 0 else if n_isnan (snd p) then 1 else if n_ltb (fst p) (snd p) then 1 else 0.
(** 90-98 and 100-108: stored in an array of floats *)
Definition mlp_flags (bn : bool) (sel : string) (tl1 tl2 : list O) : res (list O) :=
  do mlp_out <- mlp_wet_dry predict bn tl1 tl2 sel;
  Ok (map (fun p => n_ofZ (Z.of_nat (np_argmax2 p))) mlp_out).
(** 125-137: flags and the baselines of both channels *)
Definition mlp_baselines (bn : bool) (sel : string) (n_average_last_dry : nat) (tl1 tl2 : list O) : res (list O * (list O * list O)) :=
  do wet <- mlp_flags bn sel tl1 tl2;
  do b1 <- baseline_constant tl1 wet n_average_last_dry;
  do b2 <- baseline_constant tl2 wet n_average_last_dry;
  Ok (wet, (b1, b2)).
End M.
