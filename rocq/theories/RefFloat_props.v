(** * Property C28, float64 part: rounding in the reference level *)
From Coq Require Import List ZArith Bool Lia.
From Verif Require Import Base Num NumF64 NumList NearbyRain_model NearbyRain_spec RefFloat_proofs.
Import ListNotations.
Local Open Scope nat_scope.

(** midpoints and medians stay inside the range of the levels, unless twice a bound overflows *)
Theorem C28_reference_level_range : forall lo hi : F64,
  n_isinf (n_add lo lo) = false -> n_isinf (n_add hi hi) = false ->
  forall (pmin pmax wet : list F64) n mp,
  length pmin = length wet -> length pmax = length wet -> 1 <= mp <= n -> n <= length wet ->
  exists pref, nearby_determine_reference_level pmin pmax wet n mp = Ok pref /\
  forall t, t < length wet -> mp <= length (dry_levels pmin pmax wet n t) ->
    (forall k, t < k + n -> k <= t -> n_eqb (get n_nan wet k) (n_ofZ 0) = true -> n_isnan (level pmin pmax k) = false ->
       (n_leb lo (get n_nan pmin k) = true /\ n_leb (get n_nan pmin k) hi = true) /\
       (n_leb lo (get n_nan pmax k) = true /\ n_leb (get n_nan pmax k) hi = true)) ->
    n_leb lo (get n_nan pref t) = true /\ n_leb (get n_nan pref t) hi = true.
Proof. exact reference_within. Qed.
Print Assumptions C28_reference_level_range.

(** -50.3 dB all the time: the reference level is exactly that *)
Definition lev : F64 := f_div #(-503) #10.
Example C28_case_constant_level :
  match nearby_determine_reference_level [lev; lev; lev; lev] [lev; lev; lev; lev] [#0; #0; #0; #1] 3 1 with
  | Ok p => f_same_list p [lev; lev; lev; lev] | Err _ => false end = true.
Proof. vm_compute. reflexivity. Qed.
(** twice the bound must not overflow: the mean of two huge levels is infinite *)
Example C28_case_overflow :
  match nearby_determine_reference_level [Nat.iter 20 (n_mul #(2 ^ 51)) #(2 ^ 3)] [Nat.iter 20 (n_mul #(2 ^ 51)) #(2 ^ 3)] [#0] 1 1 with
  | Ok p => n_isinf (get n_nan p 0) | Err _ => false end = true.
Proof. vm_compute. reflexivity. Qed.
