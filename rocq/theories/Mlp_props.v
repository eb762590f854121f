(** * Properties C60-C61: MLP wet/dry classification *)
From Coq Require Import List ZArith Bool String Lia.
From Verif Require Import Base Num NumF64 NumList Median Mlp_model Mlp_spec Mlp_proofs.
Import ListNotations.
Local Open Scope nat_scope.
Local Notation length := List.length.

Theorem C60_rows_of_rg_and_rad : forall (O : numops) (S : numsem O) (predict : string -> list O -> res (O * O)) bn (x1 x2 : list O) sel,
  offline sel -> length x1 = length x2 -> 40 <= length x1 -> (bn = true -> 361 <= length x1) ->
  exists d1 d2, detrended x1 d1 /\ detrended x2 d2 /\
  (forall rows, mlp_wet_dry predict bn x1 x2 sel = Ok rows -> length rows = length x1 /\
     forall t, t < length x1 -> row_spec (predict sel) 20 d1 d2 t (get (n_nan, n_nan) rows t)) /\
  ((forall t w1 w2, t < length x1 -> 20 <= t -> clean d1 (t - 20) w1 -> clean d2 (t - 20) w2 -> exists p, predict sel (w1 ++ w2) = Ok p) ->
    exists rows, mlp_wet_dry predict bn x1 x2 sel = Ok rows).
Proof. exact @offline_correct. Qed.
Print Assumptions C60_rows_of_rg_and_rad.

Theorem C60_rows_of_online_models : forall (O : numops) (S : numsem O) (predict : string -> list O -> res (O * O)) bn (x1 x2 : list O) sel,
  online sel -> length x1 = length x2 -> 41 <= length x1 ->
  exists d1 d2, differences x1 d1 /\ differences x2 d2 /\
  (forall rows, mlp_wet_dry predict bn x1 x2 sel = Ok rows -> length rows = length x1 /\
     forall t, t < length x1 -> row_spec (predict sel) 40 d1 d2 t (get (n_nan, n_nan) rows t)) /\
  ((forall t w1 w2, t < length x1 -> 40 <= t -> clean d1 (t - 40) w1 -> clean d2 (t - 40) w2 -> exists p, predict sel (w1 ++ w2) = Ok p) ->
    exists rows, mlp_wet_dry predict bn x1 x2 sel = Ok rows).
Proof. exact @online_correct. Qed.
Print Assumptions C60_rows_of_online_models.

(** with bottleneck installed the rolling median needs 361 steps, more than the 40 of the window *)
Theorem C60_rejects : forall (O : numops) (predict : string -> list O -> res (O * O)) (bn : bool) (x1 x2 : list O) (sel : string),
  (~ offline sel /\ ~ online sel) \/ length x1 <> length x2 \/ (offline sel /\ length x1 < (if bn then 361 else 40)) \/ (online sel /\ length x1 < 41) ->
  mlp_wet_dry predict bn x1 x2 sel = Err ValueError.
Proof. exact @mlp_rejects. Qed.
Print Assumptions C60_rejects.

(** a "model" returning the sum and the first value of its input *)
Definition demo_predict (sel : string) (w : list F64) : res (F64 * F64) := Ok (n_sum w, nget w 0).
Definition both (p : F64 * F64) : list F64 := [fst p; snd p].
Definition row_of (r : res (list (F64 * F64))) (t : nat) : list F64 := match r with Ok l => both (get (fNaN, fNaN) l t) | Err _ => [] end.
Definition ramp (n : nat) : list F64 := map (fun i => #(Z.of_nat i)) (seq 0 n).
(** 130 steps, one NaN at step 60 of channel 1: rows 0-19, 41-80 and 111-129 are NaN;
    medians 65 and 64.5 *)
Example C60_case_offline : let r := mlp_wet_dry demo_predict false (upd 60 fNaN (ramp 130)) (ramp 130) "rad" in
  forallb (fun t => f_same_list (row_of r t) (if (Nat.leb 20 t && Nat.leb t 40) || (Nat.leb 81 t && Nat.leb t 110)
     then both (f_sub #(80 * (Z.of_nat t - 20) + 1560) #5180, #(Z.of_nat t - 20 - 65)) else [fNaN; fNaN])) (seq 0 130)
  = true /\ match r with Ok l => length l = 130 | _ => False end.
Proof. vm_compute. split; reflexivity. Qed.
(** 45 steps, squares: differences 2i+1 *)
Example C60_case_online : let x := map (fun i => #(Z.of_nat i * Z.of_nat i)) (seq 0 45) in
  let r := mlp_wet_dry demo_predict true x x "rg_online" in
  forallb (fun t => f_same_list (row_of r t) (if Nat.leb 40 t then both (#(2 * (Z.of_nat t * Z.of_nat t - (Z.of_nat t - 40) * (Z.of_nat t - 40))), #(2 * (Z.of_nat t - 40) + 1)) else [fNaN; fNaN])) (seq 0 45) = true.
Proof. vm_compute. reflexivity. Qed.
Example C60_case_rejects : mlp_wet_dry demo_predict true (ramp 60) (ramp 60) "rad" = Err ValueError /\ mlp_wet_dry demo_predict true (ramp 60) (ramp 60) "radar" = Err ValueError /\
  mlp_wet_dry demo_predict true (ramp 40) (ramp 40) "rad_online" = Err ValueError.
Proof. vm_compute. repeat split; reflexivity. Qed.

Theorem C61_online_models_are_causal : forall (O : numops) (S : numsem O) (predict : string -> list O -> res (O * O)) bn (x1 x2 y1 y2 : list O) sel r q t,
  online sel -> length x1 = length x2 -> length y1 = length y2 -> length x1 = length y1 ->
  mlp_wet_dry predict bn x1 x2 sel = Ok r -> mlp_wet_dry predict bn y1 y2 sel = Ok q -> t < length x1 ->
  agree (t - 40) t x1 y1 -> agree (t - 40) t x2 y2 -> get (n_nan, n_nan) r t = get (n_nan, n_nan) q t.
Proof. exact @online_causal. Qed.
Print Assumptions C61_online_models_are_causal.

(** the series differ from step 43 on: rows up to 42 agree, row 43 does not *)
Example C61_case : let x := ramp 45 in let y := upd 43 #100 (upd 44 fNaN (ramp 45)) in
  let r := mlp_wet_dry demo_predict true x x "rad_online" in let q := mlp_wet_dry demo_predict true y x "rad_online" in
  forallb (fun t => f_same_list (row_of r t) (row_of q t)) (seq 0 43) = true /\ f_same_list (row_of r 43) (row_of q 43) = false /\
  f_same_list (row_of r 42) [#80; #1] = true.
Proof. vm_compute. repeat split; reflexivity. Qed.
