(** * The project's own test cases, run on the model

    Inputs and expected values of /repo/pycomlink/tests, recorded there from
    runs of the real code.  Agreement shows that the model computes what the
    code computes on these inputs; nothing is proved from it.  The comparison
    is numpy's: [assert_almost_equal] (7 decimals) and
    [assert_array_almost_equal] (6 decimals).

    Each test is evaluated while the file is compiled ([run] fails unless the
    result is [true]) and leaves no proof term behind.

    The mathematical functions are replaced by [F64num], a computable library
    that is accurate to about 1e-14 on the ranges used here, the interpolant of
    scipy by [f_spline], which solves the not-a-knot equations. *)
From Coq Require Import List ZArith Bool String Reals Lra.
From Flocq Require Import IEEE754.BinarySingleNaN.
From Verif Require Import Base Num NumF64 NumList NpOps Libm Itu_table KR_model Median Baseline_model Blackout_model Schleiss_model
  Pastorek_model Leijnse_model NearbyRain_model NearbyWetdry_model Haversine_model Idw_model Stats_model Wrapper_model.
Import ListNotations.
Local Open Scope nat_scope.
Local Notation length := List.length.
Local Notation d := (@n_lit F64).

(** ** a computable library of mathematical functions *)
Definition horner (cs : list F64) (x : F64) : F64 := fold_right (fun c acc => n_add c (n_mul x acc)) (#0) cs.
(** 1, 1/2, 1/6, ... *)
Fixpoint inv_facts (k : nat) (c : F64) (i : Z) : list F64 :=
  match k with 0 => [] | S k => c :: inv_facts k (n_div c (f_ofZ i)) (i + 1)%Z end.
Definition exp_coefs : list F64 := inv_facts 20 (#1) 1.
Definition f_ln2 : F64 := d 693147180559945309417232121458 30.
Definition f_pi : F64 := d 314159265358979323846264338328 29.
Definition f_pow2 (k : Z) : F64 :=
  match k with
  | Z0 => #1
  | Zpos p => Pos.iter (fun x : F64 => n_mul x (#2)) (#1) p
  | Zneg p => Pos.iter (fun x : F64 => n_div x (#2)) (#1) p
  end.
(** nearest integer of a float of moderate size *)
Definition f_toZ (x : F64) : Z :=
  match B2SF (n_rint x) with
  | SpecFloat.S754_finite s m e => let v := if (0 <=? e)%Z then (Zpos m * 2 ^ e)%Z else (Zpos m / 2 ^ (- e))%Z in if s then (- v)%Z else v
  | _ => 0%Z
  end.
Definition num_exp (x : F64) : F64 :=
  let k := f_toZ (n_div x f_ln2) in
  n_mul (horner exp_coefs (n_sub x (n_mul (f_ofZ k) f_ln2))) (f_pow2 k).
(** logarithm: Newton's method from the binary exponent *)
Definition num_log (x : F64) : F64 :=
  match B2SF x with
  | SpecFloat.S754_finite false m e =>
      let k := (e + Z.log2 (Zpos m))%Z in
      let r := n_div x (f_pow2 k) in
      let step (y : F64) := let t := num_exp y in n_add y (n_div (n_mul (#2) (n_sub r t)) (n_add r t)) in
      n_add (n_mul (f_ofZ k) f_ln2) (step (step (step (step (#0)))))
  | _ => fNaN
  end.
Definition num_pow (x y : F64) : F64 :=
  if n_eqb y (#1) then x else if n_eqb y (#2) then n_mul x x
  else if n_eqb x (#0) then (if n_eqb y (#0) then #1 else #0) else num_exp (n_mul y (num_log x)).
Fixpoint alt (s : bool) (l : list F64) : list F64 :=
  match l with a :: _ :: t => (if s then n_opp a else a) :: alt (negb s) t | [a] => [if s then n_opp a else a] | [] => [] end.
Definition cos_coefs : list F64 := alt false (inv_facts 26 (#1) 1).
Definition sin_coefs : list F64 := alt false (tl (inv_facts 26 (#1) 1)).
Definition reduce (x : F64) : F64 := n_sub x (n_mul (n_rint (n_div x (n_mul (#2) f_pi))) (n_mul (#2) f_pi)).
Definition num_cos (x : F64) : F64 := let r := reduce x in horner cos_coefs (n_mul r r).
Definition num_sin (x : F64) : F64 := let r := reduce x in n_mul r (horner sin_coefs (n_mul r r)).
(** arc tangent of y/x for x > 0: three halvings of the angle, then the series *)
Definition atan_coefs : list F64 := map (fun i => n_div (if Nat.odd i then #(-1) else #1) (f_ofZ (Z.of_nat (2 * i + 1)))) (seq 0 14).
Definition halve (z : F64) : F64 := n_div z (n_add (#1) (n_sqrt (n_add (#1) (n_mul z z)))).
Definition num_atan2 (y x : F64) : F64 :=
  let z := halve (halve (halve (n_div y x))) in n_mul (#8) (n_mul z (horner atan_coefs (n_mul z z))).
Definition F64num : libm F64 :=
  mk_libm F64 num_pow num_exp num_log num_sin num_cos num_atan2 (fun x => n_div (n_mul x f_pi) (#180)).

(** ** the not-a-knot cubic spline (second derivatives by elimination) *)
Definition fget (l : list F64) (i : nat) : F64 := get fNaN l i.
Fixpoint forward (rows : list (F64 * F64 * F64 * F64)) (c d : F64) : list (F64 * F64) :=
  match rows with
  | [] => []
  | (a, b, c', r) :: t =>
      let m := n_sub b (n_mul a c) in
      let cn := n_div c' m in let dn := n_div (n_sub r (n_mul a d)) m in (cn, dn) :: forward t cn dn
  end.
Definition backward (l : list (F64 * F64)) : list F64 :=
  fold_right (fun cd acc => n_sub (snd cd) (n_mul (fst cd) (hd (#0) acc)) :: acc) [] l.
Definition spline_moments (xs ys : list F64) : list F64 :=
  let n := length xs in
  let h i := n_sub (fget xs (i + 1)) (fget xs i) in
  let rhs j := n_mul (#6) (n_sub (n_div (n_sub (fget ys (j + 2)) (fget ys (j + 1))) (h (j + 1)))
                                 (n_div (n_sub (fget ys (j + 1)) (fget ys j)) (h j))) in
  let sq x := n_mul x x in
  (* unknowns M_1 .. M_(n-2); M_0 and M_(n-1) are eliminated with equal third derivatives at the second and last but one node *)
  let row j :=
    let a := if Nat.eqb j 0 then #0 else if Nat.eqb j (n - 3) then n_sub (h j) (n_div (sq (h (j + 1))) (h j)) else h j in
    let c := if Nat.eqb j (n - 3) then #0 else if Nat.eqb j 0 then n_sub (h 1) (n_div (sq (h 0)) (h 1)) else h (j + 1) in
    let b := n_mul (#2) (n_add (h j) (h (j + 1))) in
    let b := if Nat.eqb j 0 then n_add b (n_mul (h 0) (n_add (#1) (n_div (h 0) (h 1)))) else b in
    let b := if Nat.eqb j (n - 3) then n_add b (n_mul (h (j + 1)) (n_add (#1) (n_div (h (j + 1)) (h j)))) else b in
    (a, b, c, rhs j) in
  let inner := backward (forward (map row (seq 0 (n - 2))) (#0) (#0)) in
  let first := let q := n_div (h 0) (h 1) in n_sub (n_mul (n_add (#1) q) (fget inner 0)) (n_mul q (fget inner 1)) in
  let last := let q := n_div (h (n - 2)) (h (n - 3)) in
              n_sub (n_mul (n_add (#1) q) (fget inner (n - 3))) (n_mul q (fget inner (n - 4))) in
  first :: inner ++ [last].
Definition f_spline (xs ys : list F64) : F64 -> F64 :=
  let M := spline_moments xs ys in
  fun x =>
  let i := interp_index xs x (length xs - 2) in
  let h := n_sub (fget xs (i + 1)) (fget xs i) in
  let u := n_sub (fget xs (i + 1)) x in let v := n_sub x (fget xs i) in
  let cube (t : F64) := n_mul t (n_mul t t) in
  n_add (n_add (n_div (n_mul (fget M i) (cube u)) (n_mul (#6) h)) (n_div (n_mul (fget M (i + 1)) (cube v)) (n_mul (#6) h)))
        (n_add (n_mul (n_sub (n_div (fget ys i) h) (n_div (n_mul (fget M i) h) (#6))) u)
               (n_mul (n_sub (n_div (fget ys (i + 1)) h) (n_div (n_mul (fget M (i + 1)) h) (#6))) v)).

(** ** comparison *)
Ltac run t := let r := eval vm_compute in t in match r with true => idtac | _ => fail 1 "test failed" end.
Definition close (k : nat) (x y : F64) : bool :=
  if n_isnan y then n_isnan x else n_ltb (n_abs (n_sub x y)) (n_div (d 15 1) (f_ofZ (10 ^ Z.of_nat k))).
Definition close_list (k : nat) (a b : list F64) : bool := Nat.eqb (length a) (length b) && forallb (fun p => close k (fst p) (snd p)) (combine a b).
Definition ok_and {A} (r : res A) (f : A -> bool) : bool := match r with Ok x => f x | Err _ => false end.
Definition value_error {A} (r : res A) : bool := match r with Err ValueError => true | _ => false end.

(** ** tests/test_stats.py *)
(** test_stats.py:8-47 *)
Definition test_wet_dry_error : bool :=
  ok_and (calc_wet_dry_performance_metrics (mk_arr [10] [#1; #0; #1; #1; #0; #1; #0; fNaN; fNaN; fNaN])
    (mk_arr [10] [#1; #0; #0; #1; #1; #1; #1; #1; #0; fNaN])) (fun e =>
    close_list 6 [wd_false_wet_rate e; wd_missed_wet_rate e; wd_matthews_correlation e; wd_true_wet_rate e; wd_true_dry_rate e]
      [d 66666667 8; d 25 2; d 9128709291752767 17; d 75 2; d 33333334 8]
    && (if list_eq_dec Nat.eq_dec [N_dry_reference e; N_wet_reference e; N_true_wet e; N_true_dry e; N_false_wet e; N_missed_wet e;
          N_all_pairs e; N_nan_pairs e; N_nan_reference_only e; N_nan_predicted_only e] [3; 4; 3; 1; 2; 1; 10; 3; 3; 1] then true else false)).
Definition test_wet_dry_error_passed : unit := ltac:(run test_wet_dry_error; exact tt).

(** test_stats.py:50-58 *)
Definition test_mcc_zero_wet : bool :=
  ok_and (calc_wet_dry_performance_metrics (mk_arr [3] [#1; #0; #0])
    (mk_arr [3] [#0; #0; #0])) (fun e =>
    close 6 (wd_matthews_correlation e) (#0)).
Definition test_mcc_zero_wet_passed : unit := ltac:(run test_mcc_zero_wet; exact tt).

(** test_stats.py:62-72 *)
Definition test_mcc_sklearn : bool :=
  ok_and (calc_wet_dry_performance_metrics (mk_arr [11] [#0; #1; #0; #0; #1; #0; #1; #0; #1; #1; #1])
    (mk_arr [11] [#0; #1; #0; #0; #0; #0; #0; #1; #0; #1; #1])) (fun e =>
    close 6 (wd_matthews_correlation e) (d 3105295017040594 16)).
Definition test_mcc_sklearn_passed : unit := ltac:(run test_mcc_sklearn; exact tt).

(** test_stats.py:74-111 *)
Definition test_rain_error : bool :=
  ok_and (calc_rain_error_performance_metrics (mk_arr [11] [#1; #0; #1; #1; #1; #0; #1; #0; fNaN; fNaN; fNaN])
    (mk_arr [11] [#1; #0; #0; #0; #1; #1; d 1 2; #1; #1; #0; fNaN]) (d 1 1)) (fun e =>
    close_list 7 [pearson_correlation e; coefficient_of_variation e; root_mean_square_error e; mean_absolute_error e;
        R_sum_reference e; R_sum_predicted e; R_mean_reference e; R_mean_predicted e; re_false_wet_rate e; re_missed_wet_rate e;
        false_wet_precipitation_rate e; missed_wet_precipitation_rate e; rainfall_threshold_wet e]
      [d (-256899818) 9; d 1246767019 9; d 788994613 9; d 62375 5; #5; d 401 2; d 625 3; d 50125 5; d 666666666 9; d 6 1; #1; #1; d 1 1]
    && (if list_eq_dec Nat.eq_dec [re_N_all_pairs e; re_N_nan_pairs e; re_N_nan_reference_only e; re_N_nan_predicted_only e] [11; 3; 3; 1] then true else false)).
Definition test_rain_error_passed : unit := ltac:(run test_rain_error; exact tt).

(** ** tests/test_blackout_gap_detection.py *)
Definition blackout_test (rsl : list F64) : res (list bool) :=
  let '(gap_start, gap_end) := get_blackout_start_and_end rsl (#(-65)) in
  do mask <- created_blackout_gap_mask rsl gap_start gap_end;
  do mask_reverse <- created_blackout_gap_mask rsl (rev gap_end) (rev gap_start);
  Ok (map2 orb mask (rev mask_reverse)).
Definition blackout_ref : list bool := [false; false; false; false; false; false; false; false; false; true; false; false].
(** test_blackout_gap_detection.py:7-30 *)
Definition test_blackout_1 : bool :=
  ok_and (blackout_test [#(-63); #(-66); #(-67); #(-69); #(-64); fNaN; #(-64); #(-66); #(-70); fNaN; #(-70); #(-68)])
    (fun m => if list_eq_dec Bool.bool_dec m blackout_ref then true else false).
Definition test_blackout_1_passed : unit := ltac:(run test_blackout_1; exact tt).

(** test_blackout_gap_detection.py:7-30 *)
Definition test_blackout_2 : bool :=
  ok_and (blackout_test [fNaN; #(-66); #(-67); #(-69); #(-64); fNaN; #(-64); #(-66); #(-70); fNaN; #(-70); #(-68)])
    (fun m => if list_eq_dec Bool.bool_dec m blackout_ref then true else false).
Definition test_blackout_2_passed : unit := ltac:(run test_blackout_2; exact tt).

(** test_blackout_gap_detection.py:7-30 *)
Definition test_blackout_3 : bool :=
  ok_and (blackout_test [#(-63); #(-66); #(-67); #(-69); #(-64); fNaN; #(-64); #(-66); #(-70); fNaN; #(-70); fNaN])
    (fun m => if list_eq_dec Bool.bool_dec m blackout_ref then true else false).
Definition test_blackout_3_passed : unit := ltac:(run test_blackout_3; exact tt).

(** ** tests/test_idw.py; the one-dimensional case has a second coordinate 0 *)
Definition idw_test (X : list (F64 * F64)) (z : list F64) (q : list (F64 * F64)) (p : F64) : res (list F64) :=
  do t <- new_tree X; snd (tree_call F64num brute_query t q z 6 (#0) p None).
Definition line11 : list (F64 * F64) := map (fun x => (x, #0)) (np_linspace (#0) (#1) 11).
(** test_idw.py:14-17 *)
Definition test_idw_1d_p1 : bool :=
  ok_and (idw_test [(#0, #0); (#1, #0)] [#1; #0] line11 (#1)) (fun r => close_list 7 r
    [#1; d 9 1; d 8 1; d 7 1; d 6 1; d 5 1; d 4 1; d 3 1; d 2 1; d 1 1; #0]).
Definition test_idw_1d_p1_passed : unit := ltac:(run test_idw_1d_p1; exact tt).

(** test_idw.py:18-21 *)
Definition test_idw_1d_p2 : bool :=
  ok_and (idw_test [(#0, #0); (#1, #0)] [#1; #0] line11 (#2)) (fun r => close_list 7 r
    [#1; d 98780488 8; d 94117647 8; d 84482759 8; d 69230769 8; d 5 1; d 30769231 8; d 15517241 8; d 5882353 8;
   d 1219512 8; #0]).
Definition test_idw_1d_p2_passed : unit := ltac:(run test_idw_1d_p2; exact tt).

(** test_idw.py:23-35 *)
Definition test_idw_2d : bool :=
  forallb (fun i =>
    ok_and (idw_test [(#1, #(-1)); (#1, #1); (#(-1), #(-1)); (#(-1), #1)] [#1; #0; #0; #1]
      (firstn i [(#0, #0); (d 5 1, d 5 1); (#1, #0); (#2, #2); (#1, d 11 1); (d 2 1, #1); (#1, d 3 1)]) (#2))
    (fun r => close_list 7 r (firstn i [d 5 1; d 26470588 8; d 5 1; d 26470588 8; d 473317 8; d 34256927 8; d 26870145 8]))) (seq 1 7).
Definition test_idw_2d_passed : unit := ltac:(run test_idw_2d; exact tt).

(** ** tests/test_interpolator.py *)
Definition grid_test (z : list F64) : res (list (list F64)) :=
  let c := np_linspace (#0) (#6) 4 in
  snd (interp_call F64num brute_query (new_interp {| cf_nnear := 12; cf_p := #2; cf_exclude_nan := true; cf_max_distance := None |})
    [#1; #2; #3; #4; #5] [#2; #4; #3; #5; #1] z 4 4 (repeat c 4) (map (fun y => repeat y 4) c)).
(** test_interpolator.py:13-36 *)
Definition test_grid_nan : bool :=
  ok_and (grid_test (repeat fNaN 5)) (fun r => forallb (fun row => close_list 6 row (repeat fNaN 4)) r && Nat.eqb (length r) 4).
Definition test_grid_nan_passed : unit := ltac:(run test_grid_nan; exact tt).

(** test_interpolator.py:38-62 *)
Definition test_grid : bool :=
  ok_and (grid_test [#1; #2; #3; #4; #5]) (fun r => Nat.eqb (length r) 4 && close_list 6 (List.concat r)
    [d 205352949 8; d 254119688 8; d 409027081 8; d 442468505 8; d 145942756 8; d 19760479 7; d 356701031 8;
   d 423470411 8; d 216589862 8; #2; d 341317365 8; d 354032958 8; d 254801273 8; d 282949309 8;
   d 366892889 8; d 348354789 8]).
Definition test_grid_passed : unit := ltac:(run test_grid; exact tt).

(** ** tests/test_wet_antenna.py *)
Definition trsl_test : list F64 := repeat (#0) 10 ++ repeat (#3) 30 ++ repeat (d 8 1) 20 ++ repeat (#0) 10.
Definition schleiss_test (waa_max delta_t tau : F64) : res (list F64) :=
  do w <- waa_schleiss_2013 trsl_test (repeat (#0) 70) (map (fun x => if n_ltb (#1) x then #1 else #0) trsl_test) waa_max delta_t tau;
  Ok (map (fget w) [5; 15; 30; 40; 50; 65]).
(** test_wet_antenna.py:24-31 *)
Definition test_schleiss_1 : bool :=
  ok_and (schleiss_test (d 15 1) (#1) (#15)) (fun r => close_list 7 r [#0; d 1106784 6; d 148616494 8; d 8 1; d 8 1; #0]).
Definition test_schleiss_1_passed : unit := ltac:(run test_schleiss_1; exact tt).

(** test_wet_antenna.py:33-40 *)
Definition test_schleiss_2 : bool :=
  ok_and (schleiss_test (d 18 1) (#5) (#30)) (fun r => close_list 7 r [#0; d 1771875 6; d 179999914 8; d 8 1; d 8 1; #0]).
Definition test_schleiss_2_passed : unit := ltac:(run test_schleiss_2; exact tt).

Definition R_test : list F64 := [d 1 3; d 1 2; d 1 1; #1; #10; #100].
(** test_wet_antenna.py:106-166 *)
Definition test_pastorek : bool :=
  forallb (fun c => let '(A_max, zeta, e) := c in
    ok_and (waa_pastorek_2021 F64num (SArray R_test) A_max zeta (d 1 1)) (fun r => close_list 7 r e))
   [(#5, d 55 2, [d 1118109 8; d 3955909 8; d 13895185 8; d 47581291 8; d 149347849 8; d 358020499 8]);
    (#14, d 55 2, [d 3130704 8; d 11076545 8; d 38906518 8; d 133227615 8; d 418173977 8; d 1002457398 8]);
    (#20, d 55 2, [d 4472434 8; d 15823636 8; d 55580741 8; d 190325164 8; d 597391396 8; d 1432081997 8]);
    (#14, d 3 1, [d 17514477 8; d 34728415 8; d 68436903 8; d 133227615 8; d 253233773 8; d 459773931 8]);
    (#14, d 65 2, [d 1569945 8; d 6999067 8; d 30993868 8; d 133227615 8; d 504355184 8; d 1209630827 8])].
Definition test_pastorek_passed : unit := ltac:(run test_pastorek; exact tt).

(** test_wet_antenna.py:169-188 *)
Definition test_pastorek_from_A_obs : bool :=
  ok_and (waa_pastorek_2021_from_A_obs F64num f_spline (map (fun i => f_ofZ (Z.of_nat i)) (seq 0 10)) (f_ofZ 23000000000) "H" (#10) (#14) (d 55 2) (d 1 1))
    (fun r => close_list 7 r [#0; d 66274715 8; d 110407043 8; d 145760649 8; d 176189926 8; d 20291218 7; d 226924516 8; d 249339808 8;
   d 269506481 8; d 288842441 8]).
Definition test_pastorek_from_A_obs_passed : unit := ltac:(run test_pastorek_from_A_obs; exact tt).

(** test_wet_antenna.py:190-200 *)
Definition test_pastorek_negative : bool :=
  value_error (waa_pastorek_2021_from_A_obs F64num f_spline [#0; #2; #(-1)] (f_ofZ 23000000000) "H" (#10) (#14) (d 55 2) (d 1 1)).
Definition test_pastorek_negative_passed : unit := ltac:(run test_pastorek_negative; exact tt).

(** ** tests/test_k_R_relation.py *)
(** test_k_R_relation.py:11-28 *)
Definition test_a_b_float : bool :=
  ok_and (a_b f_spline [#30] (PolStr "V") "ITU_2005") (fun r => close_list 7 (fst r) [d 2291 4] && close_list 7 (snd r) [d 9129 4])
  && ok_and (a_b f_spline [#30] (PolStr "H") "ITU_2005") (fun r => close_list 7 (fst r) [d 2403 4] && close_list 7 (snd r) [d 9485 4]).
Definition test_a_b_float_passed : unit := ltac:(run test_a_b_float; exact tt).

(** test_k_R_relation.py:30-60, the five frequencies compared there *)
Definition test_a_b_array : bool :=
  ok_and (a_b f_spline [#2; #22; #42; #62; #82] (PolStr "V") "ITU_2005") (fun r => close_list 7 (fst r) [d 998 7; d 117 3; d 4712 4; d 8889 4; d 11915 4] && close_list 7 (snd r) [d 949 3; d 97 2; d 8296 4; d 7424 4; d 6988 4])
  && ok_and (a_b f_spline [#2; #22; #42; #62; #82] (PolStr "H") "ITU_2005") (fun r => close_list 7 (fst r) [d 847 7; d 1155 4; d 4865 4; d 8974 4; d 11946 4] && close_list 7 (snd r) [d 10664 4; d 10329 4; d 8539 4; d 7586 4; d 7077 4]).
Definition test_a_b_array_passed : unit := ltac:(run test_a_b_array; exact tt).

(** test_k_R_relation.py:146-166 *)
Definition test_a_b_interpolation : bool :=
  ok_and (a_b f_spline [d 17 1; d 289 1; d 821 1] (PolStr "V") "ITU_2005") (fun r => close_list 7 (fst r) [d 73246165 12; d 210765233 9; d 119270158 8] && close_list 7 (snd r) [d 91564363 8; d 92104328 8; d 69864681 8])
  && ok_and (a_b f_spline [d 17 1; d 289 1; d 821 1] (PolStr "H") "ITU_2005") (fun r => close_list 7 (fst r) [d 579858748 13; d 220643479 9; d 119577832 8] && close_list 7 (snd r) [d 103804498 8; d 95897267 8; d 70750869 8]).
Definition test_a_b_interpolation_passed : unit := ltac:(run test_a_b_interpolation; exact tt).

(** test_k_R_relation.py:168-187 *)
Definition test_a_b_2003 : bool :=
  ok_and (a_b f_spline [#2; #35; #90] (PolStr "V") "ITU_2003") (fun r => close_list 7 (fst r) [d 1 4; d 233 3; d 999 3] && close_list 7 (snd r) [d 923 3; d 963 3; d 754 3])
  && ok_and (a_b f_spline [#2; #35; #90] (PolStr "H") "ITU_2003") (fun r => close_list 7 (fst r) [d 2 4; d 263 3; d 106 2] && close_list 7 (snd r) [d 963 3; d 979 3; d 753 3]).
Definition test_a_b_2003_passed : unit := ltac:(run test_a_b_2003; exact tt).

(** test_k_R_relation.py:122-144: 1, 1.5, ... 99.5 GHz *)
Definition test_a_b_sum : bool :=
  ok_and (a_b f_spline (map (fun i => n_div (f_ofZ (Z.of_nat (i + 2))) (#2)) (seq 0 198)) (PolStr "H") "ITU_2005")
    (fun r => close 7 (n_sum (fst r)) (d 12867885799 8) && close 7 (n_sum (snd r)) (d 17558906864 8)).
Definition test_a_b_sum_passed : unit := ltac:(run test_a_b_sum; exact tt).

(** test_k_R_relation.py:189-197 *)
Definition test_a_b_raises : bool :=
  value_error (a_b f_spline [#(-2)] (PolStr "H") "ITU_2005") && value_error (a_b f_spline [#30] (PolStr "b") "ITU_2005")
  && value_error (a_b f_spline [#30] (PolStr "H") "ITU_2000").
Definition test_a_b_raises_passed : unit := ltac:(run test_a_b_raises; exact tt).

(** test_k_R_relation.py:202-208, 262-279 *)
Definition test_calc_R : bool :=
  ok_and (calc_R_from_A F64num f_spline [#5] (#5) (Some [#30]) (Some (PolStr "H")) None None "ITU_2005" (d 1 1)) (fun r => close_list 7 r [d 449644185 8])
  && ok_and (calc_R_from_A F64num f_spline [#5] (#5) (Some [#30]) (Some (PolStr "H")) None None "ITU_2003" (d 1 1)) (fun r => close_list 7 r [d 51663233 7]).
Definition test_calc_R_passed : unit := ltac:(run test_calc_R; exact tt).

(** test_k_R_relation.py:281-314 *)
Definition test_calc_R_array : bool :=
  ok_and (calc_R_from_A F64num f_spline [#0; d 75 1; #15; fNaN; #30] (d 1 1) (Some [#80]) (Some (PolStr "H")) None None "ITU_2005" (d 1 1)) (fun r => close_list 7 r [#0; d 3461952323 7; d 9170924868 7; fNaN; d 242943446609 8]) &&
  ok_and (calc_R_from_A F64num f_spline [#0; d 75 1; #15; fNaN; #30] (#5) (Some [#30]) (Some (PolStr "H")) None None "ITU_2005" (d 1 1)) (fun r => close_list 7 r [#0; d 689479467 8; d 1431845421 8; fNaN; d 297352047 7]) &&
  ok_and (calc_R_from_A F64num f_spline [#0; d 75 1; #15; fNaN; #30] (#30) (Some [#12]) (Some (PolStr "H")) None None "ITU_2005" (d 1 1)) (fun r => close_list 7 r [#0; d 729133826 8; d 1310322105 8; fNaN; d 2354772138 8]) &&
  ok_and (calc_R_from_A F64num f_spline [#0; d 75 1; #15; fNaN; #30] (#50) (Some [#5]) (Some (PolStr "H")) None None "ITU_2005" (d 1 1)) (fun r => close_list 7 r [#0; d 4724635411 8; d 7108341151 8; fNaN; d 106946906 6]).
Definition test_calc_R_array_passed : unit := ltac:(run test_calc_R_array; exact tt).

(** test_k_R_relation.py:210-260 *)
Definition test_calc_R_args : bool :=
  (* the coefficients of the frequency give the rain rate of the frequency *)
  ok_and (a_b f_spline [#23] (PolStr "V") "ITU_2005") (fun ab =>
    ok_and (calc_R_from_A F64num f_spline [#5] (#3) None None (Some (CArr (fst ab))) (Some (CArr (snd ab))) "ITU_2005" (d 1 1)) (fun r1 =>
    ok_and (calc_R_from_A F64num f_spline [#5] (#3) (Some [#23]) (Some (PolStr "V")) None None "ITU_2005" (d 1 1)) (fun r2 => close_list 7 r1 r2)))
  && value_error (calc_R_from_A F64num f_spline [#2] (#42) (Some [#10]) None None None "ITU_2005" (d 1 1))
  && value_error (calc_R_from_A F64num f_spline [#2] (#42) (Some [#10]) None (Some (CScalar (d 31 1))) None "ITU_2005" (d 1 1))
  && value_error (calc_R_from_A F64num f_spline [#2] (#42) (Some [#10]) (Some (PolStr "H")) (Some (CScalar (#1))) None "ITU_2005" (d 1 1))
  && value_error (calc_R_from_A F64num f_spline [#2] (#42) (Some [#10; #10]) (Some (PolArr ["H"%string])) None None "ITU_2005" (d 1 1)).
Definition test_calc_R_args_passed : unit := ltac:(run test_calc_R_args; exact tt).

(** ** tests/test_nearby_rainfall.py *)
(** test_nearby_rainfall.py:13-75 *)
Definition test_reference_level : bool :=
  ok_and (nearby_determine_reference_level (np_linspace (#0) (#(-30)) 200) (np_linspace (#0) (#10) 200) (repeat (#1) 100 ++ repeat (#0) 100) 96 1)
    (fun r => close_list 6 r
   [fNaN; fNaN; fNaN; fNaN; fNaN; fNaN; fNaN; fNaN; fNaN; fNaN; fNaN; fNaN; fNaN; fNaN; fNaN; fNaN; fNaN; fNaN;
   fNaN; fNaN; fNaN; fNaN; fNaN; fNaN; fNaN; fNaN; fNaN; fNaN; fNaN; fNaN; fNaN; fNaN; fNaN; fNaN; fNaN;
   fNaN; fNaN; fNaN; fNaN; fNaN; fNaN; fNaN; fNaN; fNaN; fNaN; fNaN; fNaN; fNaN; fNaN; fNaN; fNaN; fNaN;
   fNaN; fNaN; fNaN; fNaN; fNaN; fNaN; fNaN; fNaN; fNaN; fNaN; fNaN; fNaN; fNaN; fNaN; fNaN; fNaN; fNaN;
   fNaN; fNaN; fNaN; fNaN; fNaN; fNaN; fNaN; fNaN; fNaN; fNaN; fNaN; fNaN; fNaN; fNaN; fNaN; fNaN; fNaN;
   fNaN; fNaN; fNaN; fNaN; fNaN; fNaN; fNaN; fNaN; fNaN; fNaN; fNaN; fNaN; fNaN; fNaN; d (-502512563) 8;
   d (-505025126) 8; d (-507537688) 8; d (-510050251) 8; d (-512562814) 8; d (-515075377) 8; d (-51758794) 7;
   d (-520100503) 8; d (-522613065) 8; d (-525125628) 8; d (-527638191) 8; d (-530150754) 8;
   d (-532663317) 8; d (-535175879) 8; d (-537688442) 8; d (-540201005) 8; d (-542713568) 8;
   d (-545226131) 8; d (-547738693) 8; d (-550251256) 8; d (-552763819) 8; d (-555276382) 8;
   d (-557788945) 8; d (-560301508) 8; d (-56281407) 7; d (-565326633) 8; d (-567839196) 8; d (-570351759) 8;
   d (-572864322) 8; d (-575376884) 8; d (-577889447) 8; d (-58040201) 7; d (-582914573) 8; d (-585427136) 8;
   d (-587939698) 8; d (-590452261) 8; d (-592964824) 8; d (-595477387) 8; d (-59798995) 7; d (-600502513) 8;
   d (-603015075) 8; d (-605527638) 8; d (-608040201) 8; d (-610552764) 8; d (-613065327) 8;
   d (-615577889) 8; d (-618090452) 8; d (-620603015) 8; d (-623115578) 8; d (-625628141) 8;
   d (-628140704) 8; d (-630653266) 8; d (-633165829) 8; d (-635678392) 8; d (-638190955) 8;
   d (-640703518) 8; d (-64321608) 7; d (-645728643) 8; d (-648241206) 8; d (-650753769) 8; d (-653266332) 8;
   d (-655778894) 8; d (-658291457) 8; d (-66080402) 7; d (-663316583) 8; d (-665829146) 8; d (-668341709) 8;
   d (-670854271) 8; d (-673366834) 8; d (-675879397) 8; d (-67839196) 7; d (-680904523) 8; d (-683417085) 8;
   d (-685929648) 8; d (-688442211) 8; d (-690954774) 8; d (-693467337) 8; d (-695979899) 8;
   d (-698492462) 8; d (-701005025) 8; d (-703517588) 8; d (-706030151) 8; d (-708542714) 8;
   d (-711055276) 8; d (-713567839) 8; d (-716080402) 8; d (-718592965) 8; d (-721105528) 8; d (-72361809) 7;
   d (-726130653) 8; d (-728643216) 8; d (-731155779) 8; d (-733668342) 8; d (-736180905) 8;
   d (-738693467) 8; d (-74120603) 7; d (-746231156) 8; d (-751256281) 8; d (-756281407) 8; d (-761306533) 8]).
Definition test_reference_level_passed : unit := ltac:(run test_reference_level; exact tt).

Definition wet_test : list F64 := repeat (#0) 50 ++ repeat (#1) 35 ++ [#0] ++ repeat (#1) 14.
Definition corrected_test (pref : F64) : list F64 * list F64 :=
  nearby_correct_received_signals (np_linspace (#0) (#(-30)) 100) (np_linspace (#0) (#(-20)) 100) wet_test (repeat pref 100).
(** test_nearby_rainfall.py:77-161 *)
Definition test_p_correction : bool :=
  close_list 6 (fst (corrected_test (#(-8))))
   [#(-8); #(-8); #(-8); #(-8); #(-8); #(-8); #(-8); #(-8); #(-8); #(-8); #(-8); #(-8); #(-8); #(-8); #(-8);
   #(-8); #(-8); #(-8); #(-8); #(-8); #(-8); #(-8); #(-8); #(-8); #(-8); #(-8); #(-8); #(-8); #(-8); #(-8);
   #(-8); #(-8); #(-8); #(-8); #(-8); #(-8); #(-8); #(-8); #(-8); #(-8); #(-8); #(-8); #(-8); #(-8); #(-8);
   #(-8); #(-8); #(-8); #(-8); #(-8); d (-1515151515) 8; d (-1545454545) 8; d (-1575757576) 8;
   d (-1606060606) 8; d (-1636363636) 8; d (-1666666667) 8; d (-1696969697) 8; d (-1727272727) 8;
   d (-1757575758) 8; d (-1787878788) 8; d (-1818181818) 8; d (-1848484848) 8; d (-1878787879) 8;
   d (-1909090909) 8; d (-1939393939) 8; d (-196969697) 7; #(-20); d (-203030303) 7; d (-2060606061) 8;
   d (-2090909091) 8; d (-2121212121) 8; d (-2151515152) 8; d (-2181818182) 8; d (-2212121212) 8;
   d (-2242424242) 8; d (-2272727273) 8; d (-2303030303) 8; d (-2333333333) 8; d (-2363636364) 8;
   d (-2393939394) 8; d (-2424242424) 8; d (-2454545455) 8; d (-2484848485) 8; d (-2515151515) 8;
   d (-2545454545) 8; #(-8); d (-2606060606) 8; d (-2636363636) 8; d (-2666666667) 8; d (-2696969697) 8;
   d (-2727272727) 8; d (-2757575758) 8; d (-2787878788) 8; d (-2818181818) 8; d (-2848484848) 8;
   d (-2878787879) 8; d (-2909090909) 8; d (-2939393939) 8; d (-296969697) 7; #(-30)]
  && close_list 6 (snd (corrected_test (#(-8))))
   [#(-8); #(-8); #(-8); #(-8); #(-8); #(-8); #(-8); #(-8); #(-8); #(-8); #(-8); #(-8); #(-8); #(-8); #(-8);
   #(-8); #(-8); #(-8); #(-8); #(-8); #(-8); #(-8); #(-8); #(-8); #(-8); #(-8); #(-8); #(-8); #(-8); #(-8);
   #(-8); #(-8); #(-8); #(-8); #(-8); #(-8); #(-8); #(-8); #(-8); #(-8); #(-8); #(-8); #(-8); #(-8); #(-8);
   #(-8); #(-8); #(-8); #(-8); #(-8); d (-101010101) 7; d (-103030303) 7; d (-1050505051) 8;
   d (-1070707071) 8; d (-1090909091) 8; d (-1111111111) 8; d (-1131313131) 8; d (-1151515152) 8;
   d (-1171717172) 8; d (-1191919192) 8; d (-1212121212) 8; d (-1232323232) 8; d (-1252525253) 8;
   d (-1272727273) 8; d (-1292929293) 8; d (-1313131313) 8; d (-1333333333) 8; d (-1353535354) 8;
   d (-1373737374) 8; d (-1393939394) 8; d (-1414141414) 8; d (-1434343434) 8; d (-1454545455) 8;
   d (-1474747475) 8; d (-1494949495) 8; d (-1515151515) 8; d (-1535353535) 8; d (-1555555556) 8;
   d (-1575757576) 8; d (-1595959596) 8; d (-1616161616) 8; d (-1636363636) 8; d (-1656565657) 8;
   d (-1676767677) 8; d (-1696969697) 8; #(-8); d (-1737373737) 8; d (-1757575758) 8; d (-1777777778) 8;
   d (-1797979798) 8; d (-1818181818) 8; d (-1838383838) 8; d (-1858585859) 8; d (-1878787879) 8;
   d (-1898989899) 8; d (-1919191919) 8; d (-1939393939) 8; d (-195959596) 7; d (-197979798) 7; #(-20)].
Definition test_p_correction_passed : unit := ltac:(run test_p_correction; exact tt).

Definition rain_test f pol a b pat : res (list F64) :=
  nearby_rainfall_retrival F64num f_spline (repeat (#(-4)) 100) (fst (corrected_test (#(-4)))) (snd (corrected_test (#(-4))))
    (repeat (#(-20)) 20 ++ [#(-44)] ++ repeat (#(-20)) 79) (#5) f pol a b pat (d 23 1) (d 33 2) (Some (d (-325) 1)).
(** test_nearby_rainfall.py:163-241 *)
Definition test_rainfall_frequency : bool :=
  ok_and (rain_test (Some [#25]) (Some (PolStr "v")) None None "ITU_2005") (fun r => close_list 6 r
   [#0; #0; #0; #0; #0; #0; #0; #0; #0; #0; #0; #0; #0; #0; #0; #0; #0; #0; #0; #0; fNaN; #0; #0; #0; #0; #0;
   #0; #0; #0; #0; #0; #0; #0; #0; #0; #0; #0; #0; #0; #0; #0; #0; #0; #0; #0; #0; #0; #0; #0; #0;
   d 796550311 8; d 832540146 8; d 868612906 8; d 904765236 8; d 940994058 8; d 977296534 8; d 1013670042 8;
   d 1050112148 8; d 1086620588 8; d 1123193249 8; d 1159828156 8; d 1196523457 8; d 123327741 7;
   d 1270088379 8; d 1306954817 8; d 1343875265 8; d 1380848339 8; d 141787273 7; d 1454947193 8;
   d 1492070547 8; d 1529241665 8; d 1566459473 8; d 1603722948 8; d 1641031112 8; d 1678383027 8;
   d 1715777799 8; d 1753214568 8; d 1790692511 8; d 1828210837 8; d 1865768786 8; d 1903365627 8;
   d 1941000656 8; d 1978673197 8; d 2016382595 8; d 2054128222 8; #0; d 2129725748 8; d 2167576492 8;
   d 2205461152 8; d 2243379198 8; d 2281330115 8; d 2319313405 8; d 2357328585 8; d 2395375188 8;
   d 2433452759 8; d 2471560858 8; d 2509699057 8; d 254786694 7; d 2586064103 8; d 2624290154 8]).
Definition test_rainfall_frequency_passed : unit := ltac:(run test_rainfall_frequency; exact tt).

(** test_nearby_rainfall.py:243-318 *)
Definition test_rainfall_coefficients : bool :=
  ok_and (rain_test None None (Some (CScalar (#1))) (Some (CScalar (#1))) "ITU_2005") (fun r => close_list 6 r
   [#0; #0; #0; #0; #0; #0; #0; #0; #0; #0; #0; #0; #0; #0; #0; #0; #0; #0; #0; #0; fNaN; #0; #0; #0; #0; #0;
   #0; #0; #0; #0; #0; #0; #0; #0; #0; #0; #0; #0; #0; #0; #0; #0; #0; #0; #0; #0; #0; #0; #0; #0;
   d 109353535 8; d 114060606 8; d 118767677 8; d 123474747 8; d 128181818 8; d 132888889 8; d 13759596 7;
   d 14230303 7; d 147010101 8; d 151717172 8; d 156424242 8; d 161131313 8; d 165838384 8; d 170545455 8;
   d 175252525 8; d 179959596 8; d 184666667 8; d 189373737 8; d 194080808 8; d 198787879 8; d 203494949 8;
   d 20820202 7; d 212909091 8; d 217616162 8; d 222323232 8; d 227030303 8; d 231737374 8; d 236444444 8;
   d 241151515 8; d 245858586 8; d 250565657 8; d 255272727 8; d 259979798 8; d 264686869 8; d 269393939 8;
   #0; d 278808081 8; d 283515152 8; d 288222222 8; d 292929293 8; d 297636364 8; d 302343434 8;
   d 307050505 8; d 311757576 8; d 316464646 8; d 321171717 8; d 325878788 8; d 330585859 8; d 335292929 8;
   d 34 1]).
Definition test_rainfall_coefficients_passed : unit := ltac:(run test_rainfall_coefficients; exact tt).

(** ** tests/test_nearby_wetdry.py *)
Definition a_test : list F64 := [#0; d 1 2; d 2 2; d 5 1; d (-75) 3].
Definition b_lat_test : list F64 := [d 5 3; d 2 2; #0; d 512 3; d 75 3].
Definition b_lon_test : list F64 := [d 1 2; d 2 2; d 3 2; d 51 2; d 75 3].
Definition dist_test (n : nat) : distances F64 :=
  calc_distance_between_cml_endpoints F64num n (firstn n a_test) (firstn n a_test) (firstn n b_lat_test) (firstn n b_lon_test).
(** test_nearby_wetdry.py:11-48 *)
Definition test_distances : bool :=
  close_list 6 (List.concat (a_to_all_a (dist_test 4)))
   [#0; d 157154642 8; d 314309282 8; d 7857682262 8; d 157154642 8; #0; d 15715464 7; d 770052762 7;
   d 314309282 8; d 15715464 7; #0; d 754337298 7; d 7857682262 8; d 770052762 7; d 754337298 7; #0].
Definition test_distances_passed : unit := ltac:(run test_distances; exact tt).

Definition pmin_test : list F64 :=
  let c := repeat (#(-40)) in let l (a b : F64) n := np_linspace a b n in
  c 1460 ++ l (#(-40)) (#(-60)) 15 ++ l (#(-60)) (#(-40)) 25 ++ c 60 ++ l (#(-40)) (#(-50)) 300 ++ l (#(-50)) (#(-40)) 60 ++ c 60
  ++ l (#(-40)) (#(-70)) 20 ++ l (#(-70)) (#(-40)) 20 ++ c 30.
Definition lengths_test : list F64 := map (fun i => haversine F64num (fget a_test i) (fget a_test i) (fget b_lon_test i) (fget b_lat_test i)) (seq 0 5).
Definition wetdry_test : res (list (list F64) * list (list F64)) :=
  nearby_wetdry 2050 (repeat pmin_test 5) lengths_test (dist_test 5) (#15) (#(-2)) (d (-3) 1) 3 15 24 6.
Definition nansum (l : list F64) : F64 := n_sum (filter (fun x => negb (n_isnan x)) l).
(** test_nearby_wetdry.py:51-136: the last 100 steps of the first link, the sum over the link longer than the radius, the sum of F *)
Definition test_wetdry : bool :=
  ok_and wetdry_test (fun r =>
    close_list 6 (firstn 99 (skipn 1950 (get [] (fst r) 0)))
   [#0; #0; #0; #0; #0; #0; #0; #0; #0; #0; #0; #0; #0; #0; #0; #0; #0; #0; #0; #0; #0; #0; #0; #0; #0; #0; #0;
   #0; #0; #0; #1; #1; #1; #1; #1; #1; #1; #1; #1; #1; #1; #1; #1; #1; #1; #1; #1; #1; #1; #1; #1; #1; #1;
   #1; #1; #1; #1; #1; #1; #1; #1; #1; #1; #1; #1; #1; #1; #1; #1; #0; #0; #0; #0; #0; #0; #0; #0; #0; #0;
   #0; #0; #0; #0; #0; #0; #0; #0; #0; #0; #0; #0; #0; #0; #0; #0; #0; #0; #0; #1]
    && close 6 (nansum (get [] (fst r) 4)) (#328)
    && close 6 (nansum (map nansum (snd r))) (d 708641961 5)).
Definition test_wetdry_passed : unit := ltac:(run test_wetdry; exact tt).

(** ** tests/test_xarray_wrapper.py *)
Definition foo_params : list (@param string) := [("a", None); ("b", None); ("c", Some (Plain "None")); ("d", Some (Plain "1"))]%string.
Example test_new_args_positional :
  get_new_args_dict foo_params [Plain "123"; Plain "foo"; Plain "bar"; Plain "1"]%string [] =
  [("a", Plain "123"); ("b", Plain "foo"); ("c", Plain "bar"); ("d", Plain "1")]%string.
Proof. reflexivity. Qed.
Example test_new_args_keywords :
  get_new_args_dict foo_params [Plain "123"]%string [("b", Plain "foo"); ("c", Plain "bar")]%string =
  [("a", Plain "123"); ("b", Plain "foo"); ("c", Plain "bar"); ("d", Plain "1")]%string.
Proof. reflexivity. Qed.

(** ** tests/test_wet_antenna.py:205-232: permittivity of water at 300 K, in exact arithmetic *)
Section Eps.
Local Open Scope R_scope.
Definition near (z : cplx) (re im : R) : Prop := Rabs (fst z - re) < 1.5 / 10 ^ 7 /\ Rabs (snd z - im) < 1.5 / 10 ^ 7.
Ltac eps := unfold near, eps_water; replace (1 - 300 / 300) with 0 by lra;
  repeat progress (unfold cdiv, cmul, cinv, cadd, csub, copp, cj, cR; cbn [fst snd]); split; apply Rabs_def1; field_simplify; lra.
Example test_eps_water :
  near (eps_water (1 * 10 ^ 9) 300) 77.48287775 3.57991987 /\
  near (eps_water (11 * 10 ^ 9) 300) 61.08942285 30.4521563 /\
  near (eps_water (21 * 10 ^ 9) 300) 40.02809328 36.24134086 /\
  near (eps_water (31 * 10 ^ 9) 300) 26.80177866 33.20334358 /\
  near (eps_water (41 * 10 ^ 9) 300) 19.35764296 28.80842726 /\
  near (eps_water (51 * 10 ^ 9) 300) 15.02863615 24.91108738 /\
  near (eps_water (61 * 10 ^ 9) 300) 12.36086346 21.74801145 /\
  near (eps_water (71 * 10 ^ 9) 300) 10.62309316 19.21692908 /\
  near (eps_water (81 * 10 ^ 9) 300) 9.43591151 17.17832787 /\
  near (eps_water (91 * 10 ^ 9) 300) 8.59182335 15.51584998.
Proof. do 9 (split; [eps|]). eps. Qed.
End Eps.
