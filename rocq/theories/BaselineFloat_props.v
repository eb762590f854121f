(** * Properties C04, C05 and C112, float64 part: rounding in the baselines *)
From Coq Require Import List ZArith Bool Lia.
From Verif Require Import Base Num NumF64 NumList Baseline_model Baseline_spec BaselineFloat_spec BaselineFloat_proofs LinearFloat_proofs.
Import ListNotations.
Local Open Scope nat_scope.

(** averages of one or two samples stay inside the range of the levels, unless twice a bound overflows *)
Theorem C04_constant_range_one_or_two : forall (trsl wet : list F64) n (lo hi : F64),
  1 <= n <= 2 -> length wet = length trsl ->
  n_isinf (n_add lo lo) = false -> n_isinf (n_add hi hi) = false ->
  (forall x, In x trsl -> n_leb lo x = true /\ n_leb x hi = true) ->
  exists b, baseline_constant trsl wet n = Ok b /\
  forall i, i < length trsl -> n_leb lo (get n_nan b i) = true /\ n_leb (get n_nan b i) hi = true.
Proof. exact constant_within. Qed.
Print Assumptions C04_constant_range_one_or_two.

(** averages of three or more do not: the level is 50.7 dB all the time, the baseline of the wet step is larger *)
Definition const_level : F64 := f_div #507 #10.
Theorem C04_constant_range_float_refuted : exists (trsl wet b : list F64) (x : F64),
  (forall y, In y trsl -> y = x) /\ length trsl = 4 /\ length wet = 4 /\
  baseline_constant trsl wet 3 = Ok b /\ n_ltb x (get n_nan b 3) = true.
Proof.
  exists [const_level; const_level; const_level; const_level], [#0; #0; #0; #1]. eexists. exists const_level.
  split; [intros y [<-|[<-|[<-|[<-|[]]]]]; reflexivity|]. do 2 (split; [reflexivity|]). split; [reflexivity|]. vm_compute. reflexivity.
Qed.
Print Assumptions C04_constant_range_float_refuted.

(** the line across a wet period never leaves the interval between the two dry levels and never turns back *)
Theorem C05_linear_range : forall (rsl wet : list F64) ignore_nan,
  1 <= length rsl -> length wet = length rsl ->
  exists b, baseline_linear rsl wet ignore_nan = Ok b /\
  forall d e, completed ignore_nan wet (length rsl) d e -> ~ has_nan ignore_nan wet d e -> (Z.of_nat (e - d) <= 2 ^ 50)%Z ->
  let a := get n_nan rsl d in let z := get n_nan rsl e in moderate a -> moderate z -> apart a z ->
  (n_leb a z = true -> forall j k, d <= j <= k -> k < e ->
     n_leb a (get n_nan b j) = true /\ n_leb (get n_nan b j) (get n_nan b k) = true /\ n_leb (get n_nan b k) z = true) /\
  (n_leb z a = true -> forall j k, d <= j <= k -> k < e ->
     n_leb z (get n_nan b k) = true /\ n_leb (get n_nan b k) (get n_nan b j) = true /\ n_leb (get n_nan b j) a = true).
Proof. exact linear_range. Qed.
Print Assumptions C05_linear_range.

(** levels need not be moderate in size, but differences that underflow do leave it: from 0 to 5 times the smallest
    positive number in 9 steps the baseline reaches 8 times that number *)
Definition smallest : F64 := n_div (Nat.iter 20 (fun x => n_div x #(2 ^ 53)) #1) #(2 ^ 14).
Definition tiny_rsl : list F64 := [#0; #0; #0; #0; #0; #0; #0; #0; #0; n_mul #5 smallest].
Definition tiny_wet : list F64 := [#0; #1; #1; #1; #1; #1; #1; #1; #1; #0].
Theorem C05_linear_range_underflow_refuted : exists (rsl wet b : list F64) (a z : F64),
  completed false wet 10 0 9 /\ ~ has_nan false wet 0 9 /\ length rsl = 10 /\
  get n_nan rsl 0 = a /\ get n_nan rsl 9 = z /\ moderate a /\ moderate z /\ n_leb a z = true /\
  baseline_linear rsl wet false = Ok b /\ n_ltb z (get n_nan b 8) = true.
Proof.
  destruct (ok_check (baseline_linear tiny_rsl tiny_wet false) (fun b => n_ltb (n_mul #5 smallest) (get n_nan b 8))) as (b & E & H);
    [vm_compute; reflexivity|].
  exists tiny_rsl, tiny_wet, b, #0, (n_mul #5 smallest).
  split.
  { split; [lia|]. split; [lia|]. split; [reflexivity|]. split; [vm_compute; reflexivity|].
    intros j Hj. do 9 (destruct j as [|j]; [try (exfalso; lia); vm_compute; reflexivity|]). exfalso; lia. }
  split.
  { intros (_ & j & Hj & Hn). do 9 (destruct j as [|j]; [try (exfalso; lia); vm_compute in Hn; discriminate Hn|]). exfalso; lia. }
  split; [reflexivity|]. split; [reflexivity|]. split; [reflexivity|].
  split; [split; vm_compute; reflexivity|]. split; [split; vm_compute; reflexivity|]. split; [vm_compute; reflexivity|].
  split; [exact E|exact H].
Qed.
Print Assumptions C05_linear_range_underflow_refuted.

(** rounding keeps the order: higher levels never give a lower baseline *)
Theorem C112_constant_monotone : forall (t1 t2 wet b1 b2 : list F64) n,
  length t2 = length t1 -> (Z.of_nat n <= 2 ^ 53)%Z ->
  (forall i, i < length t1 -> n_leb (get n_nan t1 i) (get n_nan t2 i) = true) ->
  baseline_constant t1 wet n = Ok b1 -> baseline_constant t2 wet n = Ok b2 ->
  forall i, i < length t1 -> n_isnan (get n_nan b1 i) = false -> n_isnan (get n_nan b2 i) = false ->
  n_leb (get n_nan b1 i) (get n_nan b2 i) = true.
Proof. exact constant_ordered. Qed.
Print Assumptions C112_constant_monotone.

Example C04_case_two_samples : (* 3 and 6: the baseline of the event is 4.5 *)
  match baseline_constant (O := F64) [#3; #6; #9; #9] [#0; #0; #1; #1] 2 with
  | Ok b => f_same_list b [#3; #6; f_div #9 #2; f_div #9 #2] | Err _ => false end = true.
Proof. vm_compute. reflexivity. Qed.
Example C112_case_order : (* one tenth and two tenths *)
  match baseline_constant (O := F64) [f_div #1 #10; f_div #1 #10; f_div #1 #10; #9] [#0; #0; #0; #1] 3,
        baseline_constant (O := F64) [f_div #2 #10; f_div #1 #10; f_div #1 #10; #9] [#0; #0; #0; #1] 3 with
  | Ok b1, Ok b2 => n_ltb (get n_nan b1 3) (get n_nan b2 3) && n_ltb (f_div #1 #10) (get n_nan b1 3) | _, _ => false end = true.
Proof. vm_compute. reflexivity. Qed.
Example C05_case_tenths : (* 0.1, wet, wet, 0.4 *)
  match baseline_linear (O := F64) [f_div #1 #10; #9; #9; f_div #4 #10] [#0; #1; #1; #0] false with
  | Ok b => n_leb (get n_nan b 0) (get n_nan b 1) && n_ltb (get n_nan b 1) (get n_nan b 2) && n_leb (get n_nan b 2) (f_div #4 #10)
  | Err _ => false end = true /\ moderate (f_div #1 #10) /\ moderate (f_div #4 #10) /\ apart (f_div #1 #10) (f_div #4 #10).
Proof. split; [vm_compute; reflexivity|]. repeat split; try (vm_compute; reflexivity). right. vm_compute. reflexivity. Qed.
