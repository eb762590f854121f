(** * Properties C113-C114: memory, scaling and order of the wet antenna attenuation; restarting the chain *)
From Coq Require Import List ZArith Bool Lia Reals Lra.
From Verif Require Import Base Num NumF64 NumList Libm Libm64 RealSpec Baseline_spec Schleiss_model Schleiss_spec KR_model KR_spec
  Chain_model Chain_spec Restart_proofs SchleissSym_proofs Chain_props.
Import ListNotations.
Local Open Scope nat_scope.

(** C113: after a dry step the past is forgotten.  Two records that agree from
    a dry step on (at positions [i1] and [i2]) get the same attenuation there. *)
Theorem C113_dry_step_forgets : forall (rsl1 bl1 wet1 rsl2 bl2 wet2 : list F64) m dt tau waa1 waa2 i1 i2 K,
  length bl1 = length rsl1 -> length wet1 = length rsl1 -> length bl2 = length rsl2 -> length wet2 = length rsl2 ->
  waa_schleiss_2013 rsl1 bl1 wet1 m dt tau = Ok waa1 -> waa_schleiss_2013 rsl2 bl2 wet2 m dt tau = Ok waa2 ->
  1 <= i1 -> 1 <= i2 -> i1 + K < length rsl1 -> i2 + K < length rsl2 ->
  (forall k, k <= K -> get n_nan rsl1 (i1 + k) = get n_nan rsl2 (i2 + k) /\ get n_nan bl1 (i1 + k) = get n_nan bl2 (i2 + k) /\
                       get n_nan wet1 (i1 + k) = get n_nan wet2 (i2 + k)) ->
  ~ flag_is_one wet1 i1 ->
  forall k, k <= K -> get n_nan waa1 (i1 + k) = get n_nan waa2 (i2 + k).
Proof. exact schleiss_forgets. Qed.
Print Assumptions C113_dry_step_forgets.

(** the records agree from the dry step 4 of the first and step 1 of the second on *)
Example C113_case :
  match waa_schleiss_2013 (O := F64) [#9; #9; #9; #9; #2; #9; #9] [#0; #0; #0; #0; #0; #0; #0] [#1; #1; #1; #1; #0; #1; #1] #8 #1 #6,
        waa_schleiss_2013 (O := F64) [#0; #2; #9; #9] [#0; #0; #0; #0] [#0; #0; #1; #1] #8 #1 #6 with
  | Ok w, Ok w' => f_same_list w [#0; #4; #6; #7; #2; #5; f_div #13 #2] && f_same_list w' [#0; #2; #5; f_div #13 #2]
  | _, _ => false end = true.
Proof. vm_compute. reflexivity. Qed.

Theorem C113_scaling_exact : forall (k : R) (rsl baseline wet : list R) m dt tau,
  length baseline = length rsl -> length wet = length rsl -> tau <> 0%R -> (0 <= k)%R ->
  exists w : list R,
    waa_schleiss_2013 (ofR rsl) (ofR baseline) (ofR wet) (XFin m : XR) (XFin dt : XR) (XFin tau : XR) = Ok (ofR w) /\
    waa_schleiss_2013 (ofR (map (Rmult k) rsl)) (ofR (map (Rmult k) baseline)) (ofR wet) (XFin (k * m) : XR) (XFin dt : XR) (XFin tau : XR) =
      Ok (ofR (map (Rmult k) w)).
Proof. exact schleiss_scale. Qed.
Print Assumptions C113_scaling_exact.

(** More attenuation or a larger maximum never lower the correction. *)
Theorem C113_monotone_exact : forall (rsl1 bl1 rsl2 bl2 wet : list R) m1 m2 dt tau w1 w2,
  length bl1 = length rsl1 -> length wet = length rsl1 -> length rsl2 = length rsl1 -> length bl2 = length rsl1 ->
  tau <> 0%R -> (0 <= 3 * dt / tau <= 1)%R -> (m1 <= m2)%R ->
  (forall i, i < length rsl1 -> (rget rsl1 i - rget bl1 i <= rget rsl2 i - rget bl2 i)%R) ->
  waa_schleiss_2013 (ofR rsl1) (ofR bl1) (ofR wet) (XFin m1 : XR) (XFin dt : XR) (XFin tau : XR) = Ok (ofR w1) ->
  waa_schleiss_2013 (ofR rsl2) (ofR bl2) (ofR wet) (XFin m2 : XR) (XFin dt : XR) (XFin tau : XR) = Ok (ofR w2) ->
  forall i, i < length rsl1 -> (rget w1 i <= rget w2 i)%R.
Proof. exact schleiss_monotone. Qed.
Print Assumptions C113_monotone_exact.

(** twice the attenuation and maximum; a larger maximum alone *)
Example C113_case_scaling :
  match waa_schleiss_2013 (O := F64) [#9; #9; #9; #1] [#0; #0; #0; #0] [#1; #1; #1; #1] #8 #1 #6,
        waa_schleiss_2013 (O := F64) [#18; #18; #18; #2] [#0; #0; #0; #0] [#1; #1; #1; #1] #16 #1 #6,
        waa_schleiss_2013 (O := F64) [#9; #9; #9; #1] [#0; #0; #0; #0] [#1; #1; #1; #1] #16 #1 #6 with
  | Ok w, Ok w', Ok w'' => f_same_list w [#0; #4; #6; #1] && f_same_list w' [#0; #8; #12; #2] && f_same_list w'' [#0; #8; #9; #1]
  | _, _, _ => false end = true.
Proof. vm_compute. reflexivity. Qed.

(** C114: a record may be cut at any [n] dry steps (with or without data): the chain gives the same rain rates for the second piece alone. *)
Theorem C114_chain_can_be_restarted : forall (L : libm F64) cubic clipped (trsl wet : list F64) n m dt tau (k : kr_args F64) R t,
  plain_coefficients k -> not_negative m -> length wet = length trsl ->
  t < length trsl -> (forall j, t <= j < t + n -> j < length trsl -> ~ flagged_wet wet j) -> n_isinf (get n_nan trsl t) = false ->
  chain L cubic clipped trsl wet n m dt tau k = Ok R ->
  chain L cubic clipped (skipn t trsl) (skipn t wet) n m dt tau k = Ok (skipn t R).
Proof. intros L cubic c trsl wet n m dt tau k R t. exact (chain_restart F64sem F64_sub_self F64_nan_eq F64_nan_op L cubic c trsl wet n m dt tau k R t). Qed.
Print Assumptions C114_chain_can_be_restarted.

(** Cut at step 3; the second piece starts with the dry steps 3 and 4.  In the
    last two runs the sample at the cut is missing. *)
Example C114_case :
  match chain F64demo no_cubic true [#10; #12; #20; #10; #10; #12; #20] [#0; #1; #1; #0; #0; #1; #1] 2 #2 #1 #6 demo_args,
        chain F64demo no_cubic true [#10; #10; #12; #20] [#0; #0; #1; #1] 2 #2 #1 #6 demo_args with
  | Ok R, Ok R' => f_same_list (skipn 3 R) R' && f_same_list R' [#0; #0; #1; f_div #289 #4] | _, _ => false end &&
  match chain F64demo no_cubic true [#10; #12; #20; fNaN; #10; #12; #20] [#0; #1; #1; #0; #0; #1; #1] 1 #2 #1 #6 demo_args,
        chain F64demo no_cubic true [fNaN; #10; #12; #20] [#0; #0; #1; #1] 1 #2 #1 #6 demo_args with
  | Ok R, Ok R' => f_same_list (skipn 3 R) R' && f_same_list R' [fNaN; #0; #1; f_div #289 #4] | _, _ => false end = true.
Proof. vm_compute. reflexivity. Qed.

(** Cut within an event it does not. *)
Theorem C114_restart_in_event_refuted :
  exists (trsl wet R R' : list F64) t, length wet = length trsl /\ t < length trsl /\
     chain F64demo no_cubic true trsl wet 1 #2 #1 #6 demo_args = Ok R /\
     chain F64demo no_cubic true (skipn t trsl) (skipn t wet) 1 #2 #1 #6 demo_args = Ok R' /\
     n_eqb (get n_nan R (t + 1)) (get n_nan R' 1) = false.
Proof.
  destruct (ok_check (chain F64demo no_cubic true [#10; #12; #20] [#0; #1; #1] 1 #2 #1 #6 demo_args)
    (fun R => match chain F64demo no_cubic true [#12; #20] [#1; #1] 1 #2 #1 #6 demo_args with
              | Ok R' => negb (n_eqb (get n_nan R 2) (get n_nan R' 1)) | Err _ => false end)) as (R & E & H); [vm_compute; reflexivity|].
  destruct (ok_check (chain F64demo no_cubic true [#12; #20] [#1; #1] 1 #2 #1 #6 demo_args)
    (fun R' => negb (n_eqb (get n_nan R 2) (get n_nan R' 1))) H) as (R' & E' & H').
  apply negb_true_iff in H'. exists [#10; #12; #20], [#0; #1; #1], R, R', 1.
  split; [reflexivity|]. split; [simpl; lia|]. split; [exact E|]. split; [exact E'|]. exact H'.
Qed.
Print Assumptions C114_restart_in_event_refuted.
