(** * Properties C13-C15: Schleiss wet antenna attenuation *)
From Coq Require Import List ZArith Bool Lia Reals Lra.
From Verif Require Import Base Num NumF64 NumList RealSpec Schleiss_model Schleiss_spec Schleiss_proofs.
Import ListNotations.
Local Open Scope nat_scope.

Theorem C13_schleiss_is_least_candidate :
  forall (rsl baseline wet : list F64) (m dt tau : F64),
  length baseline = length rsl -> length wet = length rsl ->
  (n_eqb tau (n_ofZ 0) = true -> forall i, 1 <= i < length rsl -> ~ flag_is_one wet i) ->
  exists waa, waa_schleiss_2013 rsl baseline wet m dt tau = Ok waa /\
    length waa = length rsl /\
    (0 < length rsl -> get n_nan waa 0 = n_ofZ 0) /\
    forall i, 1 <= i < length rsl -> n_isnan (atten rsl baseline i) = false ->
      (~ flag_is_one wet i -> least_of [atten rsl baseline i; m] (get n_nan waa i)) /\
      (flag_is_one wet i ->
        least_of [atten rsl baseline i; m; relaxed (get n_nan waa (i - 1)) m dt tau] (get n_nan waa i)).
Proof. exact (schleiss_least F64sem). Qed.
Print Assumptions C13_schleiss_is_least_candidate.

(** [tau = 0] is the only way to fail on arrays of equal length. *)
Theorem C13_schleiss_zero_tau :
  forall (rsl baseline wet : list F64) (m dt tau : F64),
  length baseline = length rsl -> length wet = length rsl ->
  n_eqb tau (n_ofZ 0) = true -> (exists i, 1 <= i < length rsl /\ flag_is_one wet i) ->
  waa_schleiss_2013 rsl baseline wet m dt tau = Err ZeroDivisionError.
Proof. exact schleiss_zero_div. Qed.
Print Assumptions C13_schleiss_zero_tau.

(** waa_max 8, 3*delta_t/tau = 1/2; a NaN flag counts as dry *)
Example C13_case :
  match waa_schleiss_2013 (O := F64) [#9; #9; #9; #1; #9; #9] [#0; #0; #0; #0; #0; #0]
          [#1; #1; #1; #1; #1; fNaN] #8 #1 #6 with
  | Ok w => f_same_list w [#0; #4; #6; #1; f_div #9 #2; #8]
  | Err _ => false end = true.
Proof. vm_compute. reflexivity. Qed.

Example C13_case_tau :
  waa_schleiss_2013 (O := F64) [#9; #9] [#0; #0] [#0; #1] #8 #1 #0 = Err ZeroDivisionError.
Proof. vm_compute. reflexivity. Qed.

Theorem C14_schleiss_nan_exact :
  forall (rsl baseline wet : list F64) (m dt tau : F64) waa,
  length baseline = length rsl -> length wet = length rsl ->
  waa_schleiss_2013 rsl baseline wet m dt tau = Ok waa ->
  forall i, 1 <= i < length rsl ->
    (n_isnan (get n_nan waa i) = true <->
     n_isnan (n_sub (get n_nan rsl i) (get n_nan baseline i)) = true).
Proof. exact (schleiss_nan F64sem). Qed.
Print Assumptions C14_schleiss_nan_exact.

Example C14_case :
  match waa_schleiss_2013 (O := F64) [#9; fNaN; #9; #9] [#0; #0; #0; #0] [#1; #1; #1; #1] #8 #1 #6 with
  | Ok w => f_same_list w [#0; fNaN; #8; #8]
  | Err _ => false end = true.
Proof. vm_compute. reflexivity. Qed.

Theorem C15_schleiss_exponential_exact :
  forall (rsl baseline wet : list R) (m dt tau : R) waa i k,
  length baseline = length rsl -> length wet = length rsl -> tau <> 0%R ->
  (0 <= 3 * dt / tau <= 1)%R ->
  waa_schleiss_2013 (ofR rsl) (ofR baseline) (ofR wet) (XFin m : XR) (XFin dt : XR) (XFin tau : XR) = Ok waa ->
  i + k < length rsl ->
  (forall j, i < j <= i + k -> rget wet j = 1%R /\ (m <= rget rsl j - rget baseline j)%R) ->
  forall w0, xat waa i = XFin w0 -> (w0 <= m)%R ->
  xat waa (i + k) = XFin (m - (m - w0) * (1 - 3 * dt / tau) ^ k)%R.
Proof. exact schleiss_exp. Qed.
Print Assumptions C15_schleiss_exponential_exact.

Theorem C15_exponential_monotone :
  forall (m w0 q : R) k, (0 <= q <= 1)%R -> (w0 <= m)%R ->
  (m - (m - w0) * (1 - q) ^ k <= m - (m - w0) * (1 - q) ^ (S k) <= m)%R.
Proof. exact schleiss_exp_mono. Qed.
Print Assumptions C15_exponential_monotone.

(** the hypotheses are met: after the first step (WAA 0) two wet steps *)
Example C15_case :
  exists waa, waa_schleiss_2013 (ofR [9; 9; 9]%R) (ofR [0; 0; 0]%R) (ofR [1; 1; 1]%R)
                (XFin 8 : XR) (XFin 1 : XR) (XFin 6 : XR) = Ok waa /\
              xat waa 0 = XFin 0 /\ xat waa 2 = XFin 6.
Proof.
  destruct (schleiss_loop (ofR [9; 9; 9]%R) (ofR [0; 0; 0]%R) (ofR [1; 1; 1]%R)
              (XFin 8 : XR) (XFin 1 : XR) (XFin 6 : XR)) as (waa & E & L & H0 & _);
    [reflexivity|reflexivity| |].
  { simpl. rewrite Raux.Req_bool_false by lra. discriminate. }
  exists waa. split; [exact E|]. split; [apply H0; simpl; lia|].
  change 2 with (0 + 2).
  rewrite (C15_schleiss_exponential_exact [9; 9; 9]%R [0; 0; 0]%R [1; 1; 1]%R 8 1 6 waa 0 2)
    with (w0 := 0%R); auto; try lra.
  - f_equal. simpl. lra.
  - intros j Hj. assert (j = 1 \/ j = 2) as [->| ->] by (simpl in Hj; lia); simpl; unfold rget, get; simpl; split; lra.
  - apply H0. simpl; lia.
Qed.
