(** C133: with the spherical variogram kriging always works and is optimal. *)
From Coq Require Import List ZArith Bool Reals Lra Lia.
From Verif Require Import Base Num RealSpec RealStat SpecGram_proofs5 LinAlg PosDef PosDef4 Grid_model Grid_proofs Idw_spec Kriging_model OrdKrige_model OrdKrige_spec
  OrdKrige_proofs OrdKrige_proofs2 OrdKrige_proofs3 OrdKrige_props OrdKrigePd_proofs.
Import ListNotations.
Local Open Scope R_scope.

(** The spherical variogram is conditionally negative definite in the plane. *)
Theorem C133_spherical_negative_definite_exact :
  forall sill range nugget (x y : list R) (c : nat -> R), 0 < range -> 0 <= nugget <= sill -> tot c (List.length x) = 0 ->
  tot (fun i => tot (fun j => c i * c j * gam (spherical_curve sill range nugget) x y i j) (List.length x)) (List.length x) <=
  - (nugget * tot (fun i => c i * c i) (List.length x)).
Proof. intros sill range nugget x y c HR HN Z. exact (gam_quad_le sill range nugget x y HR HN c Z). Qed.
Print Assumptions C133_spherical_negative_definite_exact.
(** the converse is not true without the condition on the sum *)
Example C133_case_sum_matters : 0 < tot (fun i => tot (fun j => 1 * 1 * gam C132_curve C132_x [0; 0; 0] i j) 3) 3.
Proof.
  destruct C132_gam as (G01 & G02 & G12 & GD & _). rewrite !tot3. rewrite !GD, (gam_sym C132_curve C132_x [0; 0; 0] 1 0), (gam_sym C132_curve C132_x [0; 0; 0] 2 0), (gam_sym C132_curve C132_x [0; 0; 0] 2 1), G01, G02, G12. lra.
Qed.

(** Any two or more stations, also several at one place. *)
Theorem C133_always_works_exact :
  forall sill range nugget inv x y z rows cols gx gy, 0 < range -> 0 < nugget <= sill -> exact_inv inv -> setting x y z rows cols gx gy ->
  exists zi sg, kriged (sph sill range nugget) inv x y z rows cols gx gy zi sg.
Proof.
  intros sill range nugget inv x y z rows cols gx gy HR HN I (LY & LZ & N2 & GX & GY).
  destruct (call_cases _ _ inv x y (sph_real sill range nugget HR) LY I z rows cols gx gy N2 LZ GX GY) as [(_ & zi & sg & K & _)|(N & _)]; [exists zi, sg; exact K|].
  destruct N. apply sph_regular; try lra. lia.
Qed.
Print Assumptions C133_always_works_exact.
Example C133_case_same_place : exists zi sg, kriged (sph (9 / 10) 1 (1 / 10)) exact_inverse [0; 0; 0] [5; 5; 5] [1; 2; 4] 1 1 [[3]] [[3]] zi sg.
Proof.
  apply C133_always_works_exact; [lra|lra|exact exact_inverse_ok|]. repeat split; try (intros r [<-|[]]; reflexivity). apply le_S, le_n.
Qed.

Theorem C133_climatological_variogram_works_exact :
  forall jd h, 1 / 60 <= h -> exists v, clim_var_param jd h = Ok v /\
  forall inv x y z rows cols gx gy, exact_inv inv -> setting x y z rows cols gx gy ->
  exists zi sg, kriged (sph (v_sill v) (v_range v) (v_nugget v)) inv x y z rows cols gx gy zi sg.
Proof.
  intros jd h Hh. destruct (clim_var_bounds jd h Hh) as (v & E & S1 & _ & R1 & _).
  destruct (clim_var_general jd h ltac:(lra)) as (u & Eu & _ & _ & Nu). rewrite E in Eu. injection Eu as <-.
  exists v. split; [exact E|]. intros inv x y z rows cols gx gy I ST. apply C133_always_works_exact; auto; lra.
Qed.
Print Assumptions C133_climatological_variogram_works_exact.

(** No other weights that add up to 1 have a smaller variance. *)
Theorem C133_minimum_variance_exact :
  forall sill range nugget inv x y z rows cols gx gy zi sg k, 0 < range -> 0 <= nugget <= sill -> exact_inv inv -> setting x y z rows cols gx gy ->
  kriged (sph sill range nugget) inv x y z rows cols gx gy zi sg -> (k < rows * cols)%nat ->
  let n := List.length x in let V := est_var (spherical_curve sill range nugget) x y (rget (concat gx) k) (rget (concat gy) k) in
  exists w, tot w n = 1 /\ rget zi k = tot (fun i => w i * rget z i) n /\ V w = rget sg k /\
    forall v, tot v n = 1 -> rget sg k + nugget * tot (fun i => (v i - w i) * (v i - w i)) n <= V v.
Proof.
  intros sill range nugget inv x y z rows cols gx gy zi sg k HR HN I ST K Hk n V.
  destruct (C132_variance_exact _ _ inv x y z rows cols gx gy zi sg k (sph_real sill range nugget HR) I ST K Hk) as (w & S1 & A & B & C).
  exists w. split; [exact S1|]. split; [exact A|]. split; [symmetry; exact B|]. intros v Sv. unfold V. rewrite (C v Sv).
  assert (Z : tot (fun i => v i - w i) (List.length x) = 0) by (rewrite tot_sub; change (tot v n - tot w n = 0); rewrite Sv; unfold n; rewrite S1; ring).
  pose proof (gam_quad_le sill range nugget x y HR HN _ Z) as Q. cbv beta in Q. unfold n. lra.
Qed.
Print Assumptions C133_minimum_variance_exact.
Example C133_case_minimum : exists zi sg, C132_call [1; 2; 4] [4 / 5] [0] zi sg /\
  rget sg 0 <= est_var C132_curve C132_x [0; 0; 0] (4 / 5) 0 (fun i => if Nat.eqb i 2 then 1 else 0).
Proof.
  destruct (C132_works [1; 2; 4] [4 / 5] [0]) as (zi & sg & K); [reflexivity..|]. exists zi, sg. split; [exact K|].
  destruct (C133_minimum_variance_exact (9 / 10) 1 (1 / 10) exact_inverse C132_x [0; 0; 0] [1; 2; 4] 1 1 [[4 / 5]] [[0]] zi sg 0 ltac:(lra) ltac:(lra) exact_inverse_ok
    (C132_setting [1; 2; 4] [4 / 5] [0] eq_refl eq_refl) K (le_n 1)) as (w & _ & _ & _ & H).
  specialize (H (fun i => if Nat.eqb i 2 then 1 else 0)). change (List.length C132_x) with 3%nat in H. rewrite !tot3 in H. cbn [Nat.eqb] in H. specialize (H ltac:(lra)).
  pose proof (Rle_0_sqr (0 - w 0%nat)). pose proof (Rle_0_sqr (0 - w 1%nat)). pose proof (Rle_0_sqr (1 - w 2%nat)). unfold Rsqr in *.
  change (rget (concat [[4 / 5]]) 0) with (4 / 5) in H. change (rget (concat [[0]]) 0) with 0 in H. unfold C132_curve. lra.
Qed.

(** The variance is at most twice the variogram to any station; away from all
    stations it is at least the nugget. *)
Theorem C133_variance_bounds_exact :
  forall sill range nugget inv x y z rows cols gx gy zi sg k, 0 < range -> 0 <= nugget <= sill -> exact_inv inv -> setting x y z rows cols gx gy ->
  kriged (sph sill range nugget) inv x y z rows cols gx gy zi sg -> (k < rows * cols)%nat ->
  let d i := rdist (rget (concat gx) k) (rget (concat gy) k) (rget x i) (rget y i) in
  (forall i, (i < List.length x)%nat -> rget sg k <= 2 * spherical_curve sill range nugget (d i)) /\
  ((forall i, (i < List.length x)%nat -> 1 / 10 ^ 10 < d i) -> nugget * (1 + / INR (List.length x)) <= rget sg k).
Proof.
  intros sill range nugget inv x y z rows cols gx gy zi sg k HR HN I ST K Hk d.
  destruct (C133_minimum_variance_exact sill range nugget inv x y z rows cols gx gy zi sg k HR HN I ST K Hk) as (w & S1 & _ & B & C).
  destruct ST as (_ & _ & N2 & _). split.
  - intros i Hi. specialize (C (delta i)). set (n := List.length x) in *.
    assert (T1 : tot (delta i) n = 1). { rewrite (tot_ext _ (fun k => delta i k * 1)) by (intros; ring). apply (tot_delta_l (fun _ => 1) i n Hi). }
    specialize (C T1). assert (0 <= nugget * tot (fun j => (delta i j - w j) * (delta i j - w j)) n) by (apply Rmult_le_pos; [lra|apply tot_nonneg; intros; apply Rle_0_sqr]).
    set (g := spherical_curve sill range nugget) in *. set (p := rget (concat gx) k) in *. set (q := rget (concat gy) k) in *.
    assert (E : est_var g x y p q (delta i) = 2 * gam0 g x y p q i).
    { unfold est_var. fold n. rewrite tot_delta_l by auto. rewrite (tot_ext _ (fun a => delta i a * tot (fun b => delta i b * gam g x y a b) n)).
      - rewrite tot_delta_l by auto. rewrite tot_delta_l by auto. unfold gam. rewrite Nat.eqb_refl. ring.
      - intros a _. rewrite <- tot_scal. apply tot_ext. intros; ring. }
    rewrite E in C. unfold gam0 in C. cbv zeta in C. fold (d i) in C.
    assert (0 <= g (d i)).
    { unfold g. rewrite curve_c3 by (auto; apply sqrt_pos). assert (D0 : 0 <= d i / range) by (apply Rmult_le_pos; [apply sqrt_pos|left; apply Rinv_0_lt_compat; auto]).
      assert (0 <= PosDef2.c3 (d i / range) <= 1).
      { unfold PosDef2.c3. set (t := d i / range) in *. destruct (Rle_dec t 1) as [T|]; [|lra]. assert (0 <= t ^ 3 <= t).
        { replace (t ^ 3) with (t * (t * t)) by ring. split; [apply Rmult_le_pos; [lra|apply Rle_0_sqr]|]. rewrite <- (Rmult_1_r t) at 4. apply Rmult_le_compat_l; [lra|]. nra. }
        split; [|lra]. replace (1 - 3 / 2 * t + 1 / 2 * t ^ 3) with ((1 - t) * (1 - t) * (1 + t / 2)) by field. apply Rmult_le_pos; [apply Rle_0_sqr|lra]. }
      nra. }
    destruct (Rle_dec (d i) (1 / 10 ^ 10)); lra.
  - intros Far. rewrite <- B. eapply Rle_trans; [|apply (est_var_low sill range nugget x y HR HN); [exact S1|exact Far]].
    apply Rmult_le_compat_l; [lra|]. apply Rplus_le_compat_l. apply squares_low; [lia|exact S1].
Qed.
Print Assumptions C133_variance_bounds_exact.
Example C133_case_bounds : exists zi sg, C132_call [1; 2; 4] [4 / 5] [0] zi sg /\ 1 / 10 * (1 + / 3) <= rget sg 0 <= 2 * spherical_curve (9 / 10) 1 (1 / 10) (3 / 10).
Proof.
  destruct (C132_works [1; 2; 4] [4 / 5] [0]) as (zi & sg & K); [reflexivity..|]. exists zi, sg. split; [exact K|].
  destruct (C133_variance_bounds_exact (9 / 10) 1 (1 / 10) exact_inverse C132_x [0; 0; 0] [1; 2; 4] 1 1 [[4 / 5]] [[0]] zi sg 0 ltac:(lra) ltac:(lra) exact_inverse_ok
    (C132_setting [1; 2; 4] [4 / 5] [0] eq_refl eq_refl) K (le_n 1)) as [U L].
  assert (D : forall i, (i < 3)%nat -> exists v, 1 / 10 ^ 10 < v /\ rdist (rget (concat [[4 / 5]]) 0) (rget (concat [[0]]) 0) (rget C132_x i) (rget [0; 0; 0] i) = v /\ (i = 2%nat -> v = 3 / 10)).
  { intros [|[|[|i]]] Hi; [| | |lia]; unfold C132_x, rget, get; cbn [nth concat app].
    - exists (4 / 5). rewrite rdist_above by lra. simpl; repeat split; try lra; discriminate.
    - exists (2 / 5). rewrite rdist_above by lra. simpl; repeat split; try lra; discriminate.
    - exists (3 / 10). rewrite rdist_below by lra. simpl; repeat split; lra. }
  split.
  - change (List.length C132_x) with 3%nat in L. replace (INR 3) with 3 in L by (simpl; ring). apply L. intros i Hi. destruct (D i Hi) as (v & P & -> & _). exact P.
  - specialize (U 2%nat (le_n 3)). destruct (D 2%nat (le_n 3)) as (v & _ & E & V). rewrite E, (V eq_refl) in U. exact U.
Qed.
