(** * Wet antenna attenuation in binary64: what survives rounding (C15, C16) *)
From Coq Require Import List ZArith Bool Lia.
From Verif Require Import Base Num NumF64 NumList Libm Libm64 KR_spec Schleiss_model Schleiss_spec Pastorek_model WaaFloat_spec WaaFloat_proofs.
Import ListNotations.
Local Open Scope nat_scope.

Theorem C15_wet_step_in_float :
  forall (rsl baseline wet : list F64) (waa_max delta_t tau : F64) waa i,
  length baseline = length rsl -> length wet = length rsl -> nonneg delta_t -> positive tau ->
  waa_schleiss_2013 rsl baseline wet waa_max delta_t tau = Ok waa ->
  1 <= i < length rsl -> flag_is_one wet i ->
  n_leb (get n_nan waa (i - 1)) waa_max = true ->
  n_leb (get n_nan waa (i - 1)) (n_sub (get n_nan rsl i) (get n_nan baseline i)) = true ->
  n_leb (get n_nan waa (i - 1)) (get n_nan waa i) = true /\ n_leb (get n_nan waa i) waa_max = true /\
  n_leb (get n_nan waa i) (n_sub (get n_nan rsl i) (get n_nan baseline i)) = true.
Proof. exact (schleiss_step F64sem). Qed.
Print Assumptions C15_wet_step_in_float.

Theorem C15_wet_period_in_float :
  forall (rsl baseline wet : list F64) (waa_max delta_t tau : F64) waa s e,
  length baseline = length rsl -> length wet = length rsl -> nonneg delta_t -> positive tau ->
  waa_schleiss_2013 rsl baseline wet waa_max delta_t tau = Ok waa -> e < length rsl ->
  (forall j, s < j <= e -> flag_is_one wet j /\ n_leb waa_max (n_sub (get n_nan rsl j) (get n_nan baseline j)) = true) ->
  n_leb (get n_nan waa s) waa_max = true ->
  forall i j, s <= i <= j -> j <= e ->
  n_leb (get n_nan waa i) (get n_nan waa j) = true /\ n_leb (get n_nan waa j) waa_max = true.
Proof. exact (schleiss_event F64sem). Qed.
Print Assumptions C15_wet_period_in_float.

(** waa_max = 2, 3*delta_t/tau = 1/2: 0, then up in halves of the remaining distance, then back to 0 *)
Example C15_case_float :
  match waa_schleiss_2013 (O := F64) [#0; #3; #3; #3; #0] [#0; #0; #0; #0; #0] [#0; #1; #1; #1; #0] #2 #1 #6 with
  | Ok w => f_same_list w [#0; #1; f_div #3 #2; f_div #7 #4; #0]
  | Err _ => false end = true.
Proof. vm_compute. reflexivity. Qed.

Theorem C16_pastorek_in_float :
  forall (L : libm F64) (Rs : list F64) (A_max zeta d : F64),
  pow_sane L -> pow_mono L -> exp_sane L -> nonneg A_max -> finite A_max -> nonneg zeta -> positive d -> finite d ->
  (forall r, In r Rs -> nonneg r) ->
  exists w, waa_pastorek_2021 L (SArray Rs) A_max zeta d = Ok w /\ length w = length Rs /\
  (forall i, i < length Rs -> n_leb (n_ofZ 0) (get n_nan w i) = true /\ n_leb (get n_nan w i) A_max = true) /\
  (forall i j, i < length Rs -> j < length Rs -> n_leb (get n_nan Rs i) (get n_nan Rs j) = true -> n_leb (get n_nan w i) (get n_nan w j) = true).
Proof. exact (pastorek_float F64sem). Qed.
Print Assumptions C16_pastorek_in_float.

Theorem C16_library_laws_satisfiable : pow_sane F64cr /\ pow_mono F64cr /\ exp_sane F64cr.
Proof. exact (conj F64cr_pow_sane (conj F64cr_pow_mono F64cr_exp_sane)). Qed.
Print Assumptions C16_library_laws_satisfiable.

(** with 1/(1-x) in place of exp: A_max = 4, d = 1, zeta = 1 gives 4 * R / (1 + R) *)
Example C16_case_float :
  let L := mk_libm F64 demo_pow (fun x => f_div #1 (f_sub #1 x)) (fun x => x) (fun x => x) (fun x => x) (fun x _ => x) (fun x => x) in
  match waa_pastorek_2021 L (SArray [#0; #1; #3; #7]) #4 #1 #1 with
  | Ok w => f_same_list w [#0; #2; #3; f_div #7 #2] | Err _ => false end = true.
Proof. vm_compute. reflexivity. Qed.
