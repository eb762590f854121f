(** * Property C77: coverage mask *)
From Coq Require Import List Bool Reals ZArith.
From Verif Require Import Base Coverage_model Coverage_spec Coverage_proofs.
Import ListNotations.
Local Open Scope nat_scope.

Theorem C77_union_of_buffers : forall (N : Type) (buffer : N -> ((N * N) * (N * N)) -> N * N -> bool) links (xg yg : array2 N) d,
  arr_ok xg -> arr_ok yg -> a_rows yg = a_rows xg -> a_cols yg = a_cols xg ->
  exists m, calc_coverage_mask true buffer links xg yg d = Ok m /\ a_rows m = a_rows xg /\ a_cols m = a_cols xg /\ arr_ok m /\
  forall i j n, i < a_rows xg -> j < a_cols xg ->
    (elt false m i j = true <-> exists c, In c links /\ buffer d (link_of c) (elt n xg i j, elt n yg i j) = true).
Proof. exact @mask_correct. Qed.
Print Assumptions C77_union_of_buffers.

Theorem C77_exact_discs_grow : forall (buffer : R -> ((R * R) * (R * R)) -> R * R -> bool) links links' (xg yg : array2 R) d d',
  (forall d l p, buffer d l p = true <-> near d l p) -> arr_ok xg -> arr_ok yg -> a_rows yg = a_rows xg -> a_cols yg = a_cols xg ->
  incl links links' -> (d <= d')%R ->
  exists m m', calc_coverage_mask true buffer links xg yg d = Ok m /\ calc_coverage_mask true buffer links' xg yg d' = Ok m' /\
  (forall i j, i < a_rows xg -> j < a_cols xg ->
    (elt false m i j = true <-> exists c, In c links /\ near d (link_of c) (elt 0%R xg i j, elt 0%R yg i j))) /\
  (forall i j, i < a_rows xg -> j < a_cols xg -> elt false m i j = true -> elt false m' i j = true).
Proof. exact mask_exact. Qed.
Print Assumptions C77_exact_discs_grow.

(** such buffers exist *)
Theorem C77_exact_disc_exists : forall d l p, exact_buffer d l p = true <-> near d l p.
Proof. exact exact_buffer_near. Qed.
Print Assumptions C77_exact_disc_exists.

Theorem C77_smaller_ygrid : forall (N : Type) (buffer : N -> ((N * N) * (N * N)) -> N * N -> bool) links (xg yg : array2 N) d,
  arr_ok xg -> arr_ok yg -> a_rows yg * a_cols yg < a_rows xg * a_cols xg ->
  calc_coverage_mask true buffer links xg yg d = Err ValueError.
Proof. exact @mask_small_y. Qed.
Print Assumptions C77_smaller_ygrid.

Theorem C77_cascaded_union_removed : forall (N : Type) (buffer : N -> ((N * N) * (N * N)) -> N * N -> bool) links (xg yg : array2 N) d,
  calc_coverage_mask false buffer links xg yg d = Err AttributeError.
Proof. exact @mask_removed. Qed.
Print Assumptions C77_cascaded_union_removed.

(** buffers of horizontal integer links on a 2 x 3 grid *)
Definition demo_buffer (d : Z) (l : (Z * Z) * (Z * Z)) (p : Z * Z) : bool :=
  ((fst (fst l) - d <=? fst p) && (fst p <=? fst (snd l) + d) && (Z.abs (snd p - snd (fst l)) <=? d))%Z.
Example C77_case :
  let xg := {| a_rows := 2; a_cols := 3; a_flat := [0; 1; 2; 0; 1; 2]%Z |} in
  let yg := {| a_rows := 2; a_cols := 3; a_flat := [0; 0; 0; 5; 5; 5]%Z |} in
  let a := {| lon_a := 0; lat_a := 0; lon_b := 1; lat_b := 0 |}%Z in
  let b := {| lon_a := 2; lat_a := 6; lon_b := 4; lat_b := 6 |}%Z in
  let flat r := match r with Ok m => a_flat m | Err _ => [] end in
  flat (calc_coverage_mask true demo_buffer [a] xg yg 0%Z) = [true; true; false; false; false; false] /\
  flat (calc_coverage_mask true demo_buffer [a; b] xg yg 1%Z) = [true; true; true; false; true; true] /\
  flat (calc_coverage_mask true demo_buffer [] xg yg 1%Z) = repeat false 6 /\
  calc_coverage_mask true demo_buffer [a] xg {| a_rows := 1; a_cols := 3; a_flat := [0; 0; 0]%Z |} 1%Z = Err ValueError.
Proof. vm_compute. repeat split; reflexivity. Qed.
