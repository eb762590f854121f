(** * Property C138: the documented chain in binary64 is the exact chain with a tiny error of the attenuation *)
From Coq Require Import Reals Lra Lia ZArith Bool List String.
From Verif Require Import Base Num NumF64 NumList Libm Libm64 RealSpec RealStat Ulp64 Baseline_spec Schleiss_spec KR_model KR_spec Chain_model
  HaversineFloat_spec HaversineFloat_proofs FloatErr_spec RainFloat_spec RainFloat_proofs RainFloat_props ChainErr_spec ChainErr_proofs ChainErr_proofs2.
Import ListNotations.
Local Open Scope R_scope.
Local Notation length := List.length.

(** For every record there is exactly one exact baseline and one exact wet antenna attenuation. *)
Theorem C138_exact_run_exists :
  forall T (wet : list F64) n top q, (1 <= n)%nat ->
  exists B W, exact_baseline T wet n B /\ exact_waa T B wet top q W /\
  forall B' W', exact_baseline T wet n B' -> exact_waa T B' wet top q W' -> B' = B /\ W' = W.
Proof.
  intros T wet n top q N. destruct (baseline_built T wet n N) as (B & EB). destruct (waa_built T B wet top q) as (W & EW).
  exists B, W. split; [exact EB|]. split; [exact EW|]. intros B' W' EB' EW'.
  assert (B' = B) as -> by exact (baseline_unique T wet n B' B N EB' EB). split; [reflexivity|]. exact (waa_unique T B wet top q W' W EW' EW).
Qed.
Print Assumptions C138_exact_run_exists.

(** Baseline, wet antenna attenuation and rain rate in double precision: for a
    complete record of levels of at most [M] dB every computed rain rate is,
    up to the error of the power function and 2^-48, that of the exact
    attenuation with an error of at most [(i + 1) * n * M / 2^47] dB; rain
    certainly below the threshold is zero, rain certainly above is kept. *)
Theorem C138_float_chain :
  forall (L : libm F64) cubic e clipped trsl wet T n M fm dt tau top vdt vtau (k : kr_args F64) a b va vb vl vm B W,
  pow_accurate L e -> pow_mono L -> 0 <= e <= / 1000 ->
  (1 <= n)%nat -> are_nums trsl T -> length wet = length trsl -> INR n <= 2 ^ 20 -> INR n * INR (length trsl) <= 2 ^ 30 ->
  1 <= M <= 2 ^ 100 -> (forall v, In v T -> Rabs v <= M) ->
  is_num fm top -> is_num dt vdt -> is_num tau vtau -> 0 <= top <= M -> / 2 ^ 60 <= vdt <= 2 ^ 60 -> / 2 ^ 60 <= vtau <= 2 ^ 60 -> 3 * vdt / vtau <= 1 ->
  kr_f k = None -> kr_pol k = None -> kr_a k = Some (CScalar a) -> kr_b k = Some (CScalar b) ->
  is_num a va -> is_num b vb -> is_num (kr_len k) vl -> is_num (kr_min k) vm ->
  / 2 ^ 60 <= va <= 2 ^ 60 -> / 2 <= vb <= 2 -> / 2 ^ 60 <= vl <= 2 ^ 60 -> / 2 ^ 18 <= vm -> 5 * M <= va * Rpower (2 ^ 20) vb * vl ->
  exact_baseline T wet n B -> exact_waa T B wet top (3 * vdt / vtau) W ->
  exists R, chain L cubic clipped trsl wet n fm dt tau k = Ok R /\ length R = length trsl /\ forall i, (i < length trsl)%nat ->
    let A := rget T i - rget B i - rget W i in
    let d := INR (i + 1) * (INR n * M / 2 ^ 47) in
    rain_between ((1 - (e + / 2 ^ 48)) * law va vb vl (A - d)) ((1 + (e + / 2 ^ 48)) * law va vb vl (A + d)) vm (get n_nan R i).
Proof. exact chain_close. Qed.
Print Assumptions C138_float_chain.

(** the laws hold for a correctly rounded power function *)
Theorem C138_power_laws_satisfiable : pow_accurate F64cr (/ 2 ^ 53) /\ pow_mono F64cr.
Proof. split; [exact C20_accuracy_satisfiable|exact F64cr_pow_mono]. Qed.
Print Assumptions C138_power_laws_satisfiable.

(** two dry and two wet steps, 10 dB of attenuation, at most 2 dB wet antenna attenuation, tau of
    fifteen steps, a = b = 1, two kilometres: rain rates 0, 0, 4.8 and 4.64 mm/h *)
Lemma C138_example_baseline : exact_baseline [50; 50; 60; 60] [#0; #0; #1; #1] 2 [50; 50; 50; 50].
Proof.
  assert (D0 : ~ flagged_wet [#0; #0; #1; #1] 0) by (unfold flagged_wet; vm_compute; discriminate). assert (D1 : ~ flagged_wet [#0; #0; #1; #1] 1) by (unfold flagged_wet; vm_compute; discriminate).
  assert (D2 : flagged_wet [#0; #0; #1; #1] 2) by (unfold flagged_wet; vm_compute; auto). assert (D3 : flagged_wet [#0; #0; #1; #1] 3) by (unfold flagged_wet; vm_compute; auto).
  split; [reflexivity|]. intros i Hi. simpl in Hi. assert (i = 0 \/ i = 1 \/ i = 2 \/ i = 3)%nat as [-> | [-> | [-> | ->]]] by lia.
  - split; [reflexivity|]. split; intros; [lia|lia].
  - split; [reflexivity|]. split; intros; [lia|lia].
  - split; [intros [H|H]; [lia|contradiction]|]. split; [intros _ _ H; contradiction|]. intros _ _ _. unfold rget, slice, rmean. simpl. lra.
  - split; [intros [H|H]; [lia|contradiction]|]. split; [reflexivity|]. intros _ _ H. contradiction.
Qed.
Lemma C138_example_waa : exact_waa [50; 50; 60; 60] [50; 50; 50; 50] [#0; #0; #1; #1] 2 (3 * 1 / 15) [0; 0; 2 / 5; 18 / 25].
Proof.
  assert (D1 : ~ flag_is_one [#0; #0; #1; #1] 1) by (unfold flag_is_one; vm_compute; discriminate).
  assert (D2 : flag_is_one [#0; #0; #1; #1] 2) by (unfold flag_is_one; vm_compute; auto). assert (D3 : flag_is_one [#0; #0; #1; #1] 3) by (unfold flag_is_one; vm_compute; auto).
  assert (M : forall x y, x <= y -> Rmin x y = x) by (intros; apply Rmin_left; auto). assert (M' : forall x y, y <= x -> Rmin x y = y) by (intros; apply Rmin_right; auto).
  split; [reflexivity|]. split; [reflexivity|]. intros i Hi. simpl in Hi. assert (i = 1 \/ i = 2 \/ i = 3)%nat as [-> | [-> | ->]] by lia.
  - split; [intros _|intros H; contradiction]. unfold rget; simpl. rewrite M; lra.
  - split; [intros H; contradiction|intros _]. unfold rget; simpl. rewrite (M' (60 - 50)) by lra. rewrite M'; lra.
  - split; [intros H; contradiction|intros _]. unfold rget; simpl. rewrite (M' (60 - 50)) by lra. rewrite M'; lra.
Qed.
Example C138_case : exists R,
  chain F64cr (fun _ _ _ => #0) true [#50; #50; #60; #60] [#0; #0; #1; #1] 2 (#2) (#1) (#15)
    (mk_kr_args (#2) None None (Some (CScalar (#1))) (Some (CScalar (#1))) "ITU_2005"%string (#1)) = Ok R /\
  is_num (get n_nan R 1) 0 /\ exists v, is_num (get n_nan R 2) v /\ Rabs (v - 4.8) <= / 1000000000.
Proof.
  assert (P1 : forall y, 0 < y -> law 1 1 2 y = y / 2).
  { intros y Y. unfold law. destruct (Rle_dec y 0); [lra|]. replace (/ 1) with 1 by lra. rewrite Rpower_1; lra. }
  assert (N : forall z, (0 <= z <= 100)%Z -> is_num (#z) (IZR z)) by (intros z Z; apply num_ofZ; lia).
  destruct (C138_float_chain F64cr (fun _ _ _ => #0) (/ 2 ^ 53) true [#50; #50; #60; #60] [#0; #0; #1; #1] [50; 50; 60; 60] 2 60 (#2) (#1) (#15) 2 1 15
    (mk_kr_args (#2) None None (Some (CScalar (#1))) (Some (CScalar (#1))) "ITU_2005"%string (#1)) (#1) (#1) 1 1 2 1 [50; 50; 50; 50] [0; 0; 2 / 5; 18 / 25]) as (R & ER & LR & H);
    try exact (proj1 C138_power_laws_satisfiable); try exact (proj2 C138_power_laws_satisfiable); try reflexivity; try (apply N; lia); try (simpl; lra);
    try exact C138_example_baseline; try exact C138_example_waa.
  - lia.
  - repeat constructor; apply N; lia.
  - intros v I. repeat (destruct I as [<-|I]; [rewrite Rabs_pos_eq; lra|]). destruct I.
  - rewrite Rpower_1 by (simpl; lra). simpl. lra.
  - exists R. split; [exact ER|]. split.
    + destruct (H 1%nat ltac:(simpl; lia)) as (v & V & _ & _ & _ & Z). cbv zeta in Z. assert (v = 0) as <-; [apply Z|exact V].
      unfold rget. simpl nth. rewrite P1 by (simpl; lra). simpl; lra.
    + destruct (H 2%nat ltac:(simpl; lia)) as (v & V & C1 & _ & C3 & _). exists v. split; [exact V|]. cbv zeta in C1, C3. unfold rget in C1, C3. simpl nth in C1, C3.
      rewrite P1 in C1, C3 by (simpl; lra). simpl in C1, C3. apply Rabs_le. lra.
Qed.
