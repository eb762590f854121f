(** * Properties C100, C101: the documented processing chain *)
From Coq Require Import List ZArith Bool String.
From Verif Require Import Base Num NumF64 NumList Libm Libm64 Baseline_model Baseline_spec Schleiss_spec
  KR_model KR_spec Chain_model Chain_spec Chain_proofs.
Import ListNotations.
Local Open Scope nat_scope.
Local Notation length := List.length.

Definition demo_args : kr_args F64 :=
  mk_kr_args (#1) None None (Some (CScalar #1)) (Some (CScalar f_half)) EmptyString #1.
Definition no_cubic (_ _ : list F64) (x : F64) : F64 := x.

Theorem C100_total : forall (L : libm F64) cubic clipped (trsl wet : list F64) n m dt tau (k : kr_args F64),
  pow_sane L -> plain_coefficients k -> 1 <= n -> length wet = length trsl ->
  (n_eqb tau (n_ofZ 0) = true -> forall i, 1 <= i < length trsl -> ~ flag_is_one wet i) ->
  exists R, chain L cubic clipped trsl wet n m dt tau k = Ok R /\ length R = length trsl /\
    forall i, i < length trsl ->
      (missing (get n_nan trsl i) -> missing (get n_nan R i)) /\
      (missing (get n_nan R i) \/ nonneg (get n_nan R i)).
Proof. intros L cubic c trsl wet n m dt tau k H. revert c trsl wet n m dt tau k. exact (chain_total F64sem L cubic H). Qed.
Print Assumptions C100_total.

(** attenuation 2, 10, 4 in the wet steps; the correction takes 1, 2, 2 *)
Example C100_case :
  match chain F64demo no_cubic true [#10; #10; #12; #20; fNaN; #14; #30] [#0; #0; #1; #1; #1; #1; #0] 1 #2 #1 #6 demo_args with
  | Ok R => f_same_list R [#0; #0; #1; f_div #289 #4; fNaN; #4; #0] | Err _ => false end = true.
Proof. vm_compute. reflexivity. Qed.

(** one frequency and polarisation: as with their coefficients *)
Theorem C100_frequency : forall (L : libm F64) cubic clipped (trsl wet : list F64) n m dt tau (k : kr_args F64) f pol,
  plain_coefficients k -> frequency_of cubic k f pol ->
  chain L cubic clipped trsl wet n m dt tau (by_frequency k f pol) = chain L cubic clipped trsl wet n m dt tau k.
Proof. exact (chain_frequency F64sem). Qed.
Print Assumptions C100_frequency.

(** dry steps get rain rate zero *)
Theorem C100_dry_is_zero : forall (L : libm F64) cubic clipped (trsl wet : list F64) n m dt tau (k : kr_args F64) R i,
  pow_zero L -> plain_coefficients k -> nonneg m ->
  length wet = length trsl -> chain L cubic clipped trsl wet n m dt tau k = Ok R -> i < length trsl ->
  ~ flagged_wet wet i -> finite (get n_nan trsl i) ->
  n_eqb (get n_nan R i) (n_ofZ 0) = true.
Proof. intros L cubic c trsl wet n m dt tau k R i H. exact (chain_dry_zero F64sem L cubic H c trsl wet n m dt tau k R i). Qed.
Print Assumptions C100_dry_is_zero.

(** The step [A[A < 0] = 0] of the notebook never changes anything ... *)
Theorem C100_clipping_has_no_effect : forall (L : libm F64) cubic (trsl wet : list F64) n m dt tau (k : kr_args F64),
  length wet = length trsl ->
  chain L cubic true trsl wet n m dt tau k = chain L cubic false trsl wet n m dt tau k.
Proof. exact (chain_clip_no_effect F64sem). Qed.
Print Assumptions C100_clipping_has_no_effect.

(** the loss is 8 below the baseline at the second step and 3 below at the third; the rain rate is 25/4 there *)
Example C100_case_above_baseline :
  match chain F64demo no_cubic false [#10; #2; #7] [#0; #1; #1] 1 #2 #1 #12 demo_args with
  | Ok R => f_same_list R [#0; #0; f_div #25 #4] | Err _ => false end = true.
Proof. vm_compute. reflexivity. Qed.

(** ... and it is not required without wet antenna correction, as the comment
    in the notebook says. *)
Theorem C100_clipping_not_required : forall (L : libm F64) cubic (trsl wet : list F64) n (k : kr_args F64),
  pow_zero L -> plain_coefficients k -> 1 <= n -> length wet = length trsl ->
  exists R R', chain_without_waa L cubic true trsl wet n k = Ok R /\ chain_without_waa L cubic false trsl wet n k = Ok R' /\ length R = length R' /\
    forall i, i < length R -> get n_nan R i = get n_nan R' i \/
      (n_eqb (get n_nan R i) (n_ofZ 0) = true /\ n_eqb (get n_nan R' i) (n_ofZ 0) = true).
Proof. intros L cubic trsl wet n k H. revert trsl wet n k. exact (chain_clip_not_needed F64sem L cubic H). Qed.
Print Assumptions C100_clipping_not_required.

Example C100_case_clip :
  match chain_without_waa F64demo no_cubic true [#10; #7; #12] [#0; #1; #1] 1 demo_args,
        chain_without_waa F64demo no_cubic false [#10; #7; #12] [#0; #1; #1] 1 demo_args with
  | Ok R, Ok R' => f_same_list R [#0; #0; #4] && f_same_list R' [#0; #0; #4] | _, _ => false end = true.
Proof. vm_compute. reflexivity. Qed.

(** rain rates up to step [t] only depend on data up to step [t] *)
Theorem C100_causal : forall (L : libm F64) cubic clipped (trsl1 wet1 trsl2 wet2 : list F64) n m dt tau (k : kr_args F64) R1 R2 t,
  plain_coefficients k ->
  chain L cubic clipped trsl1 wet1 n m dt tau k = Ok R1 -> chain L cubic clipped trsl2 wet2 n m dt tau k = Ok R2 ->
  length wet1 = length trsl1 -> length wet2 = length trsl2 ->
  t < length trsl1 -> t < length trsl2 ->
  same_until n_nan t trsl1 trsl2 -> same_until n_nan t wet1 wet2 ->
  same_until n_nan t R1 R2.
Proof. exact (chain_causal F64sem). Qed.
Print Assumptions C100_causal.

(** If the signal never rises above the baseline, the correction only lowers
    rain rates. *)
Theorem C101_waa_lowers_rain : forall (L : libm F64) cubic clipped (trsl wet : list F64) n m dt tau (k : kr_args F64) bl R R' i,
  pow_sane L -> pow_mono L ->
  plain_coefficients k -> nonneg m -> finite m -> nonneg dt -> positive tau -> finite tau ->
  length wet = length trsl ->
  baseline_constant trsl wet n = Ok bl ->
  chain L cubic clipped trsl wet n m dt tau k = Ok R -> chain_without_waa L cubic clipped trsl wet n k = Ok R' ->
  i < length trsl -> (forall j, j <= i -> not_negative (atten trsl bl j)) ->
  (missing (get n_nan R i) <-> missing (get n_nan R' i)) /\
  (~ missing (get n_nan R' i) -> n_leb (get n_nan R i) (get n_nan R' i) = true).
Proof. intros L cubic c trsl wet n m dt tau k bl R R' i H1 H2. exact (chain_waa_lowers F64sem L cubic H1 H2 c trsl wet n m dt tau k bl R R' i). Qed.
Print Assumptions C101_waa_lowers_rain.

Example C101_case :
  match chain F64demo no_cubic true [#10; #12; #14] [#0; #1; #1] 1 #2 #1 #6 demo_args,
        chain_without_waa F64demo no_cubic true [#10; #12; #14] [#0; #1; #1] 1 demo_args with
  | Ok R, Ok R' => f_same_list R [#0; #1; f_div #25 #4] && f_same_list R' [#0; #4; #16] | _, _ => false end = true.
Proof. vm_compute. reflexivity. Qed.

(** Without that condition the correction can raise the rain rate: a drop of
    the loss below the baseline makes the wet antenna attenuation negative, and
    it stays negative in later wet steps. *)
Theorem C101_negative_waa_raises_rain :
  exists (trsl wet : list F64) n m dt tau k R R' i,
    plain_coefficients k /\ nonneg m /\ nonneg dt /\ positive tau /\ length wet = length trsl /\ i < length trsl /\
    chain F64demo (fun _ _ x => x) true trsl wet n m dt tau k = Ok R /\
    chain_without_waa F64demo (fun _ _ x => x) true trsl wet n k = Ok R' /\
    n_ltb (get n_nan R' i) (get n_nan R i) = true.
Proof. exact chain_waa_raises. Qed.
Print Assumptions C101_negative_waa_raises_rain.

(** Even a step whose loss is below the baseline can get rain. *)
Theorem C101_rain_below_baseline :
  exists (trsl wet : list F64) n m dt tau k bl R i,
    plain_coefficients k /\ nonneg m /\ nonneg dt /\ positive tau /\ length wet = length trsl /\ i < length trsl /\
    baseline_constant trsl wet n = Ok bl /\
    chain F64demo (fun _ _ x => x) true trsl wet n m dt tau k = Ok R /\
    n_ltb (get n_nan trsl i) (get n_nan bl i) = true /\ positive (get n_nan R i).
Proof. exact chain_rain_below. Qed.
Print Assumptions C101_rain_below_baseline.

(** The assumptions about pow hold for the correctly rounded library. *)
Theorem C101_pow_laws_hold : pow_sane F64cr /\ pow_mono F64cr /\ pow_zero F64cr.
Proof. exact (conj F64cr_pow_sane (conj F64cr_pow_mono F64cr_pow_zero)). Qed.
Print Assumptions C101_pow_laws_hold.
