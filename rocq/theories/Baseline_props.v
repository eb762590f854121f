(** * Properties C01-C08 (processing/baseline.py) *)
From Coq Require Import List ZArith Bool Reals Lia.
From Verif Require Import Base Num NumF64 NumList Baseline_model Baseline_spec Baseline_proofs Baseline_proofs2.
Import ListNotations.
Local Open Scope nat_scope.

(** C01: float64 inputs, any history. *)
Theorem C01_constant_follows_signal_when_dry :
  forall (trsl wet : list F64) (n_average_last_dry : nat),
  1 <= n_average_last_dry -> length wet = length trsl ->
  exists b, baseline_constant trsl wet n_average_last_dry = Ok b /\ length b = length trsl /\
    (forall i, i < n_average_last_dry -> i < length trsl -> get n_nan b i = get n_nan trsl i) /\
    (forall i, i < length trsl -> ~ flagged_wet wet i -> get n_nan b i = get n_nan trsl i).
Proof. exact constant_dry_final. Qed.
Print Assumptions C01_constant_follows_signal_when_dry.

Example C01_case :
  match baseline_constant (O := F64) [#3; #5; #9; #8; #4; #7] [#0; #0; #1; #1; #0; #0] 2 with
  | Ok b => f_same_list b [#3; #5; #4; #4; #4; #7]
  | Err _ => false end = true.
Proof. vm_compute. reflexivity. Qed.

(** C02: value during a wet event; second clause: an event already running at
    step n-1 keeps the value of step n-1. *)
Theorem C02_constant_frozen_during_event :
  forall (trsl wet : list F64) (n_average_last_dry : nat),
  1 <= n_average_last_dry -> length wet = length trsl ->
  exists b, baseline_constant trsl wet n_average_last_dry = Ok b /\
    (forall s i, n_average_last_dry <= s -> i < length trsl -> event_from wet s i ->
       get n_nan b i = average (slice (s - n_average_last_dry) s b)) /\
    (forall i, n_average_last_dry <= i < length trsl ->
       (forall j, n_average_last_dry - 1 <= j <= i -> flagged_wet wet j) ->
       get n_nan b i = get n_nan trsl (n_average_last_dry - 1)).
Proof. exact constant_wet_final. Qed.
Print Assumptions C02_constant_frozen_during_event.

(** In exact arithmetic the average is the real mean of real numbers. *)
Theorem C02_constant_event_mean_exact :
  forall (trsl : list R) (wet : list XR) n s i (b : list XR),
  baseline_constant (xs trsl : list XR) wet n = Ok b ->
  n <= s -> i < length trsl -> event_from wet s i ->
  exists before, slice (s - n) s b = xs before /\ length before = n /\
    get XNaN b i = XFin (real_average before).
Proof. exact constant_wet_exact. Qed.
Print Assumptions C02_constant_event_mean_exact.

Example C02_case : (* two events, the second averages over the end of the first *)
  event_from (O := F64) [#0; #0; #1; #1; #0; #1] 2 3 /\
  event_from (O := F64) [#0; #0; #1; #1; #0; #1] 5 5 /\
  match baseline_constant (O := F64) [#3; #5; #9; #8; #6; #7] [#0; #0; #1; #1; #0; #1] 2 with
  | Ok b => f_same_list b [#3; #5; #4; #4; #6; #5]
  | Err _ => false end = true.
Proof.
  split; [|split; [|vm_compute; reflexivity]].
  - split; [lia|]. split; [vm_compute; congruence|].
    intros j Hj. assert (j = 2 \/ j = 3) as [->| ->] by lia; vm_compute; reflexivity.
  - split; [lia|]. split; [vm_compute; congruence|].
    intros j Hj. assert (j = 5) as -> by lia; vm_compute; reflexivity.
Qed.

(** C03: a NaN flag has exactly the effect of a wet flag ... *)
Theorem C03_constant_nan_flag_is_wet :
  forall (trsl wet : list F64) n,
  baseline_constant trsl wet n =
  baseline_constant trsl (map (fun w : F64 => if n_isnan w then n_ofZ 1 else w) wet) n.
Proof. exact (constant_nan_is_wet F64sem). Qed.
Print Assumptions C03_constant_nan_flag_is_wet.

(** ... so the documented NaN output is refuted: there are NaN-flagged steps
    whose baseline is a number, and so is the step after. *)
Theorem C03_documented_nan_propagation_refuted :
  exists (trsl wet b : list F64) (i : nat),
    baseline_constant trsl wet 1 = Ok b /\ n_isnan (get n_nan wet i) = true /\
    n_isnan (get n_nan b i) = false /\ n_isnan (get n_nan b (i + 1)) = false /\
    i + 1 < length trsl.
Proof.
  destruct (ok_check (baseline_constant (O := F64) [#3; #5; #9] [#0; fNaN; #0] 1)
    (fun b => negb (n_isnan (get n_nan b 1)) && negb (n_isnan (get n_nan b 2)))) as (b & E & H).
  - vm_compute. reflexivity.
  - exists [#3; #5; #9], [#0; fNaN; #0], b, 1.
    apply andb_prop in H as [H1 H2]. apply negb_true_iff in H1, H2.
    repeat split; auto.
Qed.
Print Assumptions C03_documented_nan_propagation_refuted.

(** C04: causality (float64) and range (exact). *)
Theorem C04_constant_causal :
  forall (trsl1 wet1 trsl2 wet2 : list F64) n b1 b2 k,
  baseline_constant trsl1 wet1 n = Ok b1 ->
  baseline_constant trsl2 wet2 n = Ok b2 ->
  k < length trsl1 -> k < length trsl2 ->
  (forall j, j <= k -> get n_nan trsl1 j = get n_nan trsl2 j) ->
  (forall j, j <= k -> get n_nan wet1 j = get n_nan wet2 j) ->
  get n_nan b1 k = get n_nan b2 k.
Proof. exact constant_causal. Qed.
Print Assumptions C04_constant_causal.

Theorem C04_constant_range_exact :
  forall (trsl : list R) (wet : list XR) n lo hi,
  1 <= n -> length wet = length trsl -> (forall r, In r trsl -> (lo <= r <= hi)%R) ->
  exists b, baseline_constant (xs trsl : list XR) wet n = Ok b /\
    forall i, i < length trsl -> exists r, get XNaN b i = XFin r /\ (lo <= r <= hi)%R.
Proof. exact constant_range_final. Qed.
Print Assumptions C04_constant_range_exact.

Example C04_case : (* two different futures after step 2 *)
  match baseline_constant (O := F64) [#3; #5; #9; #8] [#0; #0; #1; #1] 1,
        baseline_constant (O := F64) [#3; #5; #9; #1; #2] [#0; #0; #1; #0; #0] 1 with
  | Ok b1, Ok b2 => f_same_list b1 [#3; #5; #5; #5] && f_same_list b2 [#3; #5; #5; #1; #2]
  | _, _ => false end = true.
Proof. vm_compute. reflexivity. Qed.

(** C05: linear baseline, float64: [line_point a z m k] is [a + k*((z-a)/m)]. *)
Theorem C05_linear_between_dry_steps :
  forall (rsl wet : list F64) ignore_nan,
  1 <= length rsl -> length wet = length rsl ->
  exists b, baseline_linear rsl wet ignore_nan = Ok b /\ length b = length rsl /\
    (forall d e, completed ignore_nan wet (length rsl) d e -> ~ has_nan ignore_nan wet d e ->
       forall j, d <= j < e ->
         get n_nan b j = line_point (get n_nan rsl d) (get n_nan rsl e) (e - d) (j - d)) /\
    (forall i, i < length rsl -> state ignore_nan wet i = false ->
       (forall d, completed ignore_nan wet (length rsl) d i -> ~ has_nan ignore_nan wet d i) ->
       (forall e, ~ completed ignore_nan wet (length rsl) i e) ->
       get n_nan b i = get n_nan rsl i).
Proof. exact linear_run_final. Qed.
Print Assumptions C05_linear_between_dry_steps.

Theorem C05_linear_exact :
  forall (rsl : list R) (wet : list XR) ignore_nan,
  1 <= length rsl -> length wet = length rsl ->
  exists b, baseline_linear (xs rsl : list XR) wet ignore_nan = Ok b /\
    (forall d e j, completed ignore_nan wet (length rsl) d e -> ~ has_nan ignore_nan wet d e -> d <= j < e ->
       let a := get 0%R rsl d in let z := get 0%R rsl e in
       let v := (a + (z - a) * (INR (j - d) / INR (e - d)))%R in
       get XNaN b j = XFin v /\ (Rmin a z <= v <= Rmax a z)%R) /\
    (forall i, i < length rsl -> state ignore_nan wet i = false ->
       (forall d, completed ignore_nan wet (length rsl) d i -> ~ has_nan ignore_nan wet d i) ->
       (forall e, completed ignore_nan wet (length rsl) i e -> ~ has_nan ignore_nan wet i e) ->
       get XNaN b i = XFin (get 0%R rsl i)).
Proof. exact linear_exact_final. Qed.
Print Assumptions C05_linear_exact.

Example C05_case :
  completed (O := F64) false [#0; #1; #1; #0; #0] 5 0 3 /\
  match baseline_linear (O := F64) [#3; #50; #60; #9; #7] [#0; #1; #1; #0; #0] false with
  | Ok b => f_same_list b [#3; #5; #7; #9; #7]
  | Err _ => false end = true.
Proof.
  split; [|vm_compute; reflexivity].
  split; [lia|split; [lia|split; [vm_compute; reflexivity|split; [vm_compute; reflexivity|]]]].
  intros j Hj. assert (j = 1 \/ j = 2) as [->| ->] by lia; vm_compute; reflexivity.
Qed.

(** C06 *)
Theorem C06_linear_trailing_wet_is_zero :
  forall (rsl wet : list F64) ignore_nan d,
  length wet = length rsl -> d < length rsl ->
  (forall j, d < j < length rsl -> state ignore_nan wet j = true) ->
  exists b, baseline_linear rsl wet ignore_nan = Ok b /\
    forall j, d < j < length rsl -> get n_nan b j = n_ofZ 0.
Proof. exact linear_trailing_final. Qed.
Print Assumptions C06_linear_trailing_wet_is_zero.

Example C06_case :
  match baseline_linear (O := F64) [#(-50); #(-51); #(-70); #(-71)] [#0; #0; #1; #1] false with
  | Ok b => f_same_list b [#(-50); #(-51); #0; #0]
  | Err _ => false end = true.
Proof. vm_compute. reflexivity. Qed.

(** C07 *)
Theorem C07_linear_nan_period_is_nan :
  forall (rsl wet : list F64) d e,
  length wet = length rsl ->
  completed false wet (length rsl) d e -> has_nan false wet d e ->
  exists b, baseline_linear rsl wet false = Ok b /\
    (forall j, d <= j < e -> get n_nan b j = n_nan) /\
    ((forall e', ~ completed false wet (length rsl) e e') -> get n_nan b e = n_nan).
Proof. exact linear_nan_final. Qed.
Print Assumptions C07_linear_nan_period_is_nan.

Theorem C07_linear_ignore_nan_is_forward_fill :
  forall (rsl wet : list F64) ignore_nan',
  1 <= length rsl -> length wet = length rsl ->
  baseline_linear rsl wet true = baseline_linear rsl (fill_forward wet) ignore_nan'.
Proof. exact (linear_ignore_fill F64sem). Qed.
Print Assumptions C07_linear_ignore_nan_is_forward_fill.

Theorem C07_linear_ignore_nan_no_nan_exact :
  forall (rsl : list R) (wet : list XR) lo hi,
  1 <= length rsl -> length wet = length rsl -> (forall r, In r rsl -> (lo <= r <= hi)%R) ->
  exists b, baseline_linear (xs rsl : list XR) wet true = Ok b /\
    forall i, i < length rsl ->
      exists r, get XNaN b i = XFin r /\ ((lo <= r <= hi)%R \/ r = 0%R).
Proof. exact linear_ignore_final. Qed.
Print Assumptions C07_linear_ignore_nan_no_nan_exact.

Example C07_case :
  completed (O := F64) false [#0; #1; fNaN; #0; #0] 5 0 3 /\
  has_nan (O := F64) false [#0; #1; fNaN; #0; #0] 0 3 /\
  match baseline_linear (O := F64) [#3; #50; #60; #9; #7] [#0; #1; fNaN; #0; #0] false,
        baseline_linear (O := F64) [#3; #50; #60; #9; #7] [#0; #1; fNaN; #0; #0] true with
  | Ok b, Ok b' => f_same_list b [fNaN; fNaN; fNaN; fNaN; #7] && f_same_list b' [#3; #5; #7; #9; #7]
  | _, _ => false end = true.
Proof.
  split; [|split; [|vm_compute; reflexivity]].
  - split; [lia|split; [lia|split; [vm_compute; reflexivity|split; [vm_compute; reflexivity|]]]].
    intros j Hj. assert (j = 1 \/ j = 2) as [->| ->] by lia; vm_compute; reflexivity.
  - split; auto. exists 2. split; [lia|reflexivity].
Qed.

(** C08: the explicit error branch of the model (line 160) is never reached. *)
Theorem C08_linear_never_raises :
  forall (rsl wet : list F64) ignore_nan,
  1 <= length rsl -> length wet = length rsl ->
  exists b, baseline_linear rsl wet ignore_nan = Ok b.
Proof. exact linear_never_raises. Qed.
Print Assumptions C08_linear_never_raises.

Example C08_case :
  match baseline_linear (O := F64) [#3; #50; #60] [fNaN; fNaN; fNaN] false with
  | Ok b => f_same_list b [#3; #0; #0]
  | Err _ => false end = true.
Proof. vm_compute. reflexivity. Qed.
