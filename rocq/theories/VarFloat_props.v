(** * Property C46, continued: the climatological variogram in binary64 *)
From Coq Require Import List ZArith Bool Reals Lra Lia.
From Flocq Require Import Core.
From Verif Require Import Base Num NumF64 NumList NpOps Libm Libm64 Grid_model HaversineFloat_spec HaversineFloat_proofs VarFloat_model VarFloat_spec VarFloat_proofs.
Import ListNotations.
Local Open Scope R_scope.

(** In exact arithmetic the operations of the source give what [clim_var_param]
    of [Grid_model] says. *)
Theorem C46_same_in_exact_arithmetic : forall jd h, 0 < h ->
  clim_var_param_n XRm (XFin PI : XR) (XFin jd : XR) (XFin h : XR)
  = (do v <- clim_var_param jd h; Ok (XFin (v_sill v) : XR, XFin (v_range v) : XR, XFin (v_nugget v) : XR)).
Proof. exact exact_same. Qed.
Print Assumptions C46_same_in_exact_arithmetic.

(** With powers right to one part in eight and cosines between -1 and 1, the
    parameters are positive numbers for time scales from a minute (1/64 h) to a
    century, and the nugget is at most the sill. *)
Theorem C46_positive_in_float :
  forall (L : libm F64) (pi jd h : F64) (p j x : R), pow_rough L -> cos_range L ->
  is_num pi p -> is_num jd j -> is_num h x -> 3 <= p <= 4 -> Rabs j <= 2 ^ 20 -> 1 / 64 <= x <= 2 ^ 20 ->
  exists sill range nugget rs rr rn,
  clim_var_param_n L pi jd h = Ok (sill, range, nugget) /\ is_num sill rs /\ is_num range rr /\ is_num nugget rn /\ 0 < rs /\ 0 < rr /\ 0 < rn <= rs.
Proof. exact variogram_float. Qed.
Print Assumptions C46_positive_in_float.

Theorem C46_library_laws_satisfiable : pow_rough F64cr /\ cos_range F64cr.
Proof. exact (conj F64cr_pow_rough F64cr_cos_range). Qed.
Print Assumptions C46_library_laws_satisfiable.

(** every day of the year and a time scale of 1/60 h, the rounded quotient; a time scale of 0 is rejected *)
Example C46_case_float : forall d, (1 <= d <= 366)%Z ->
  (exists sill range nugget rs, clim_var_param_n F64cr (n_lit 314159265358979 14) (n_ofZ d) (n_div #1 #60) = Ok (sill, range, nugget) /\ is_num sill rs /\ 0 < rs) /\
  clim_var_param_n F64cr (n_lit 314159265358979 14) (n_ofZ d) #0 = Err ZeroDivisionError.
Proof.
  intros d Hd. split; [|reflexivity].
  assert (N : is_num (n_div #1 #60) (rnd64 (1 / 60))) by (apply FloatErr_proofs.is_div; try apply num_ofZ; try lia; [lra|]; apply small_big; rewrite Rabs_pos_eq by lra; destruct two10 as (_ & _ & _ & ->); lra).
  destruct two10 as (T10 & T20 & T60 & T90).
  pose proof (rough' (1 / 60) ltac:(lra)) as R1. pose proof (rough' (314159265358979 / 100000000000000) ltac:(lra)) as R2.
  destruct (C46_positive_in_float F64cr (n_lit 314159265358979 14) (n_ofZ d) (n_div #1 #60) (rnd64 (314159265358979 / 100000000000000)) (IZR d) (rnd64 (1 / 60)) F64cr_pow_rough F64cr_cos_range)
    as (sill & range & nugget & rs & rr & rn & E & S1 & _ & _ & S2 & _); [| | | | | |exists sill, range, nugget, rs; auto].
  - apply lit_num; try lia; try (cbv; discriminate); reflexivity.
  - apply num_ofZ. lia.
  - exact N.
  - lra.
  - rewrite T20. rewrite Rabs_pos_eq by (apply IZR_le; lia). apply Rle_trans with 366; [apply IZR_le; lia|lra].
  - rewrite T20. lra.
Qed.
