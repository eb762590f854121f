(** * What a user expects from the baselines, stated without the code *)
From Coq Require Import List ZArith Bool Reals.
From Verif Require Import Base Num.
Import ListNotations.

Section Spec.
Context {O : numops}.

(** A wet flag counts as wet iff it is not equal to 0 (NaN is not equal to 0). *)
Definition flagged_wet (wet : list O) (i : nat) : Prop := n_eqb (get n_nan wet i) (n_ofZ 0) = false.

(** Average of some samples. *)
Definition average (l : list O) : O :=
  n_div (fold_left n_add l (n_ofZ 0)) (n_ofZ (Z.of_nat (length l))).

(** Steps s..i belong to one wet event that started at s (step s-1 is dry). *)
Definition event_from (wet : list O) (s i : nat) : Prop :=
  1 <= s <= i /\ ~ flagged_wet wet (s - 1) /\ forall j, s <= j <= i -> flagged_wet wet j.

(** Wet/dry state seen by the linear baseline: step 0 counts as dry; a NaN flag
    is wet, or repeats the previous state when NaNs are ignored. *)
Fixpoint state (ignore_nan : bool) (wet : list O) (i : nat) : bool :=
  match i with
  | 0 => false
  | S j =>
      if n_isnan (get n_nan wet i) then (if ignore_nan then state ignore_nan wet j else true)
      else negb (n_eqb (get n_nan wet i) (n_ofZ 0))
  end.

(** A wet period strictly between the dry steps d and e. *)
Definition completed (ignore_nan : bool) (wet : list O) (n d e : nat) : Prop :=
  d + 1 < e /\ e < n /\ state ignore_nan wet d = false /\ state ignore_nan wet e = false /\
  forall j, d < j < e -> state ignore_nan wet j = true.

(** It contains a NaN flag that is not ignored. *)
Definition has_nan (ignore_nan : bool) (wet : list O) (d e : nat) : Prop :=
  ignore_nan = false /\ exists j, d < j < e /\ n_isnan (get n_nan wet j) = true.

(** The point number [k] on the straight line through [m+1] points from [a] to [b]. *)
Definition line_point (a b : O) (m k : nat) : O :=
  n_add a (n_mul (n_ofZ (Z.of_nat k)) (n_div (n_sub b a) (n_ofZ (Z.of_nat m)))).

(** Wet flags with every NaN replaced by the last state (0/1), dry at the start. *)
Fixpoint fill_from (prev : O) (wet : list O) : list O :=
  match wet with
  | [] => []
  | w :: t =>
      let w' := if n_isnan w then prev else w in
      w' :: fill_from (if n_eqb w' (n_ofZ 0) then n_ofZ 0 else n_ofZ 1) t
  end.
Definition fill_forward (wet : list O) : list O :=
  match wet with [] => [] | _ :: t => n_ofZ 0 :: fill_from (n_ofZ 0) t end.
End Spec.

(** exact arithmetic: finite reals as input *)
Definition xs (l : list R) : list xr := map XFin l.

Definition real_average (l : list R) : R := (fold_right Rplus 0 l / INR (length l))%R.
