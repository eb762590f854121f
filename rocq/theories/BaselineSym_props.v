(** * Properties C111-C112: what the baselines depend on, and how *)
From Coq Require Import List ZArith Bool Reals Lia Lra.
From Verif Require Import Base Num NumF64 NumList Baseline_model Baseline_spec BaselineSym_spec BaselineSym_proofs.
Import ListNotations.
Local Open Scope nat_scope.

(** C111: levels in wet steps have no influence; float64, any values. *)
Theorem C111_constant_ignores_wet_levels : forall (trsl1 trsl2 wet : list F64) n,
  length trsl1 = length trsl2 -> length wet = length trsl1 ->
  (forall i, i < length trsl1 -> i < n \/ ~ flagged_wet wet i -> get n_nan trsl1 i = get n_nan trsl2 i) ->
  baseline_constant trsl1 wet n = baseline_constant trsl2 wet n.
Proof. exact constant_ignores. Qed.
Print Assumptions C111_constant_ignores_wet_levels.

Theorem C111_linear_ignores_wet_levels : forall (rsl1 rsl2 wet : list F64) ignore_nan,
  length rsl1 = length rsl2 -> length wet = length rsl1 ->
  (forall i, i < length rsl1 -> state ignore_nan wet i = false -> get n_nan rsl1 i = get n_nan rsl2 i) ->
  baseline_linear rsl1 wet ignore_nan = baseline_linear rsl2 wet ignore_nan.
Proof. exact linear_ignores. Qed.
Print Assumptions C111_linear_ignores_wet_levels.

(** levels 9, 8 or 70, NaN in the wet steps *)
Example C111_case :
  match baseline_constant (O := F64) [#3; #5; #9; #8; #7] [#0; #0; #1; #1; #0] 2, baseline_constant (O := F64) [#3; #5; #70; fNaN; #7] [#0; #0; #1; #1; #0] 2,
        baseline_linear (O := F64) [#3; #4; #9; #8; #7] [#0; #0; #1; #1; #0] false, baseline_linear (O := F64) [#3; #4; #70; fNaN; #7] [#0; #0; #1; #1; #0] false with
  | Ok b1, Ok b2, Ok b3, Ok b4 => f_same_list b1 [#3; #5; #4; #4; #7] && f_same_list b2 [#3; #5; #4; #4; #7] &&
      f_same_list b3 [#3; #4; #5; #6; #7] && f_same_list b4 [#3; #4; #5; #6; #7]
  | _, _, _, _ => false end = true.
Proof. vm_compute. reflexivity. Qed.

(** The baseline of a baseline is the same baseline. *)
Theorem C111_constant_idempotent : forall (trsl wet : list F64) n b,
  length wet = length trsl -> baseline_constant trsl wet n = Ok b -> baseline_constant b wet n = Ok b.
Proof. exact constant_idempotent. Qed.
Print Assumptions C111_constant_idempotent.

Theorem C111_linear_idempotent_exact : forall (rsl : list R) (wet : list XR) ignore_nan b,
  length wet = length rsl ->
  (forall d e, completed ignore_nan wet (length rsl) d e -> ~ has_nan ignore_nan wet d e) ->
  baseline_linear (xs rsl : list XR) wet ignore_nan = Ok b -> baseline_linear b wet ignore_nan = Ok b.
Proof. exact linear_idempotent. Qed.
Print Assumptions C111_linear_idempotent_exact.

(** With a NaN flag it is not: NaN spreads to the previous wet period. *)
Theorem C111_linear_idempotent_refuted :
  exists (rsl wet b b' : list F64) i, length wet = length rsl /\
    baseline_linear rsl wet false = Ok b /\ baseline_linear b wet false = Ok b' /\
    n_isnan (get n_nan b i) = false /\ n_isnan (get n_nan b' i) = true.
Proof.
  destruct (ok_check (baseline_linear (O := F64) [#3; #9; #4; #9; #5] [#0; #1; #0; fNaN; #0] false)
    (fun b => match baseline_linear b [#0; #1; #0; fNaN; #0] false with
              | Ok b' => negb (n_isnan (get n_nan b 1)) && n_isnan (get n_nan b' 1) | Err _ => false end)) as (b & E & H);
    [vm_compute; reflexivity|].
  destruct (ok_check (baseline_linear b [#0; #1; #0; fNaN; #0] false)
    (fun b' => negb (n_isnan (get n_nan b 1)) && n_isnan (get n_nan b' 1)) H) as (b' & E' & H').
  apply andb_prop in H' as [H1 H2]. apply negb_true_iff in H1.
  exists [#3; #9; #4; #9; #5], [#0; #1; #0; fNaN; #0], b, b', 1. auto.
Qed.
Print Assumptions C111_linear_idempotent_refuted.

Example C111_case_idempotent :
  match baseline_constant (O := F64) [#3; #5; #9; #8; #7; #6] [#0; #0; #1; #1; #0; #1] 2 with
  | Ok b => f_same_list b [#3; #5; #4; #4; #7; f_div #11 #2] &&
            match baseline_constant b [#0; #0; #1; #1; #0; #1] 2 with Ok b' => f_same_list b b' | _ => false end
  | _ => false end = true.
Proof. vm_compute. reflexivity. Qed.

(** C112: for given flags both baselines are linear maps of the level, that
    keep the order. *)
Theorem C112_constant_is_linear_exact : forall (a c : R) (t1 t2 : list R) (wet : list XR) n b1 b2,
  length t2 = length t1 ->
  baseline_constant (xs t1 : list XR) wet n = Ok b1 -> baseline_constant (xs t2 : list XR) wet n = Ok b2 ->
  baseline_constant (xs (map2 (fun x y => a * x + c * y)%R t1 t2) : list XR) wet n = Ok (map2 (mixed a c) b1 b2).
Proof. exact constant_linear. Qed.
Print Assumptions C112_constant_is_linear_exact.

Theorem C112_linear_is_linear_exact : forall (a c : R) (t1 t2 : list R) (wet : list XR) ignore_nan b1 b2,
  length t2 = length t1 -> length wet = length t1 ->
  baseline_linear (xs t1 : list XR) wet ignore_nan = Ok b1 -> baseline_linear (xs t2 : list XR) wet ignore_nan = Ok b2 ->
  baseline_linear (xs (map2 (fun x y => a * x + c * y)%R t1 t2) : list XR) wet ignore_nan = Ok (map2 (mixed a c) b1 b2).
Proof. exact linear_linear. Qed.
Print Assumptions C112_linear_is_linear_exact.

Theorem C112_constant_monotone_exact : forall (t1 t2 : list R) (wet : list XR) n b1 b2,
  length t2 = length t1 -> (forall i, i < length t1 -> (get 0 t1 i <= get 0 t2 i)%R) ->
  baseline_constant (xs t1 : list XR) wet n = Ok b1 -> baseline_constant (xs t2 : list XR) wet n = Ok b2 ->
  forall i, i < length t1 -> ordered (get XNaN b1 i) (get XNaN b2 i).
Proof. exact constant_monotone. Qed.
Print Assumptions C112_constant_monotone_exact.

Theorem C112_linear_monotone_exact : forall (t1 t2 : list R) (wet : list XR) ignore_nan b1 b2,
  length t2 = length t1 -> length wet = length t1 -> (forall i, i < length t1 -> (get 0 t1 i <= get 0 t2 i)%R) ->
  baseline_linear (xs t1 : list XR) wet ignore_nan = Ok b1 -> baseline_linear (xs t2 : list XR) wet ignore_nan = Ok b2 ->
  forall i, i < length t1 -> ordered (get XNaN b1 i) (get XNaN b2 i).
Proof. exact linear_monotone. Qed.
Print Assumptions C112_linear_monotone_exact.

(** Time reversal commutes with the linear baseline if the record starts and
    ends dry ... *)
Theorem C112_linear_reversible_exact : forall (rsl : list R) (wet : list XR) ignore_nan,
  1 <= length rsl -> length wet = length rsl ->
  (forall i, i < length rsl -> n_isnan (get n_nan wet i) = false) ->
  ~ flagged_wet wet 0 -> ~ flagged_wet wet (length rsl - 1) ->
  exists b, baseline_linear (xs rsl : list XR) wet ignore_nan = Ok b /\
            baseline_linear (xs (rev rsl) : list XR) (rev wet) ignore_nan = Ok (rev b).
Proof. exact linear_reverse. Qed.
Print Assumptions C112_linear_reversible_exact.

(** ... the first two runs; the last two start wet or, reversed, end wet *)
Example C112_case :
  match baseline_linear (O := F64) [#3; #50; #60; #9; #7] [#0; #1; #1; #0; #0] false, baseline_linear (O := F64) [#7; #9; #60; #50; #3] [#0; #0; #1; #1; #0] false,
        baseline_linear (O := F64) [#3; #50; #7] [#1; #1; #0] false, baseline_linear (O := F64) [#7; #50; #3] [#0; #1; #1] false with
  | Ok b1, Ok b2, Ok b3, Ok b4 => f_same_list b1 [#3; #5; #7; #9; #7] && f_same_list b2 [#7; #9; #7; #5; #3] &&
      f_same_list b3 [#3; #5; #7] && f_same_list b4 [#7; #0; #0]
  | _, _, _, _ => false end = true.
Proof. vm_compute. reflexivity. Qed.

(** 2 * (3 50 9) - (1 8 5) *)
Example C112_case_linear :
  match baseline_linear (O := F64) [#3; #50; #9] [#0; #1; #0] false, baseline_linear (O := F64) [#1; #8; #5] [#0; #1; #0] false,
        baseline_linear (O := F64) [#5; #92; #13] [#0; #1; #0] false with
  | Ok b1, Ok b2, Ok b3 => f_same_list b1 [#3; #6; #9] && f_same_list b2 [#1; #3; #5] && f_same_list b3 [#5; #9; #13]
  | _, _, _ => false end = true.
Proof. vm_compute. reflexivity. Qed.
