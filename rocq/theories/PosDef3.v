(** Averages over directions, polynomials and their moments. *)
From Coq Require Import List ZArith Bool Reals Lra Lia.
From Verif Require Import Base Num RealSpec RealStat SpecGram_proofs5 LinAlg PosDef PosDef2.
Import ListNotations.
Local Open Scope R_scope.

(** ** powers *)
Lemma pow_le1 x k : Rabs x <= 1 -> Rabs (x ^ k) <= 1.
Proof.
  intros H. induction k; [simpl; rewrite Rabs_R1; lra|]. simpl. rewrite Rabs_mult. replace 1 with (1 * 1) by ring. apply Rmult_le_compat; auto using Rabs_pos.
Qed.
Lemma pow_lip x y k : Rabs x <= 1 -> Rabs y <= 1 -> Rabs (x ^ k - y ^ k) <= INR k * Rabs (x - y).
Proof.
  intros Hx Hy. induction k; [simpl; rewrite Rminus_diag_eq, Rabs_R0 by reflexivity; lra|].
  rewrite S_INR. simpl pow. replace (x * x ^ k - y * y ^ k) with (x * (x ^ k - y ^ k) + (x - y) * y ^ k) by ring.
  eapply Rle_trans; [apply Rabs_triang|]. rewrite !Rabs_mult.
  assert (Rabs x * Rabs (x ^ k - y ^ k) <= 1 * Rabs (x ^ k - y ^ k)) by (apply Rmult_le_compat_r; auto using Rabs_pos).
  assert (Rabs (x - y) * Rabs (y ^ k) <= Rabs (x - y) * 1) by (apply Rmult_le_compat_l; auto using Rabs_pos, pow_le1). lra.
Qed.

(** ** heights: mean of (1 - z^2)^k over [0, 1] *)
Fixpoint beta (k : nat) : R := match k with O => 1 | S k' => 2 * INR (S k') / (2 * INR (S k') + 1) * beta k' end.
Fixpoint Qz (k : nat) (z : R) : R :=
  match k with O => z | S k' => (z * (1 - z ^ 2) ^ S k' + 2 * INR (S k') * Qz k' z) / (2 * INR (S k') + 1) end.
Lemma Qz_der k z : derivable_pt_lim (Qz k) z ((1 - z ^ 2) ^ k).
Proof.
  induction k as [|k IH].
  - simpl. apply (derivable_pt_lim_id z).
  - assert (P : 2 * INR (S k) + 1 <> 0) by (pose proof (pos_INR (S k)); lra).
    set (a := INR (S k)) in *.
    replace ((1 - z ^ 2) ^ S k) with (/ (2 * a + 1) * ((1 * (1 - z ^ 2) ^ S k + z * (a * (1 - z ^ 2) ^ k * (0 - 2 * z))) + 2 * a * (1 - z ^ 2) ^ k)).
    2:{ simpl pow. field. exact P. }
    eapply derivable_pt_lim_ext; [|apply (derivable_pt_lim_scal (fun y => y * (1 - y ^ 2) ^ S k + 2 * a * Qz k y) (/ (2 * a + 1)))].
    { intros y. change (mult_real_fct (/ (2 * a + 1)) (fun y0 => y0 * (1 - y0 ^ 2) ^ S k + 2 * a * Qz k y0) y = (y * (1 - y ^ 2) ^ S k + 2 * a * Qz k y) / (2 * a + 1)).
      unfold mult_real_fct. field. exact P. }
    apply (derivable_pt_lim_plus (fun y => y * (1 - y ^ 2) ^ S k) (fun y => 2 * a * Qz k y)).
    + apply (derivable_pt_lim_mult (fun y => y) (fun y => (1 - y ^ 2) ^ S k)); [apply derivable_pt_lim_id|].
      apply (derivable_pt_lim_comp (fun y => 1 - y ^ 2) (fun x => x ^ S k)).
      * apply (derivable_pt_lim_minus (fun _ => 1) (fun y => y ^ 2)); [apply derivable_pt_lim_const|].
        replace (2 * z) with (INR 2 * z ^ Init.Nat.pred 2) by (simpl; ring). apply derivable_pt_lim_pow.
      * unfold a. apply (derivable_pt_lim_pow (1 - z ^ 2) (S k)).
    + apply (derivable_pt_lim_scal (Qz k)). exact IH.
Qed.
Lemma Qz_0 k : Qz k 0 = 0.
Proof. induction k; [reflexivity|]. simpl Qz. rewrite IHk. unfold Rdiv. ring. Qed.
Lemma Qz_1 k : Qz k 1 = beta k.
Proof.
  induction k; [reflexivity|]. change (Qz (S k) 1) with ((1 * (1 - 1 ^ 2) ^ S k + 2 * INR (S k) * Qz k 1) / (2 * INR (S k) + 1)). rewrite IHk.
  change (beta (S k)) with (2 * INR (S k) / (2 * INR (S k) + 1) * beta k). replace (1 - 1 ^ 2) with 0 by ring. rewrite pow_i by lia. field. pose proof (pos_INR (S k)); lra.
Qed.
Lemma height_limit k : Un_cv (fun m => tot (fun j => (1 - (INR j * step m) ^ 2) ^ k * step m) (S m)) (beta k).
Proof.
  apply (cv_bound _ _ (2 * INR k + 4) 0). intros m _. pose proof (step_pos m) as D0. pose proof (pos_INR k) as K0.
  assert (B : Rabs (tot (fun j => win (fun z => (1 - z ^ 2) ^ k) 0 1 (0 + INR j * step m) * step m) (S m) - (Qz k 1 - Qz k 0)) <= (2 * INR k * (1 - 0) + 4 * 1) * step m).
  { apply riemann; try lra.
    - intros a b Ha Hb. eapply Rle_trans; [apply pow_lip; apply Rabs_le; split; nra|].
      replace (2 * INR k * Rabs (a - b)) with (INR k * (2 * Rabs (a - b))) by ring. apply Rmult_le_compat_l; auto.
      replace (1 - a ^ 2 - (1 - b ^ 2)) with ((b - a) * (a + b)) by ring. rewrite Rabs_mult, (Rabs_minus_sym b a), (Rabs_pos_eq (a + b)) by lra.
      pose proof (Rabs_pos (a - b)). rewrite Rmult_comm. apply Rmult_le_compat_r; lra.
    - intros a Ha. apply pow_le1. apply Rabs_le; split; nra.
    - intros a _. apply Qz_der.
    - rewrite step_mul. lra. }
  rewrite Qz_1, Qz_0, Rminus_0_r in B. rewrite (tot_ext _ (fun j => win (fun z => (1 - z ^ 2) ^ k) 0 1 (0 + INR j * step m) * step m)).
  - eapply Rle_trans; [exact B|]. apply Rmult_le_compat_r; lra.
  - intros j Hj. rewrite Rplus_0_l. unfold win.
    assert (0 <= INR j * step m) by (apply Rmult_le_pos; [apply pos_INR|lra]).
    assert (INR j * step m <= 1) by (rewrite <- (step_mul m); apply Rmult_le_compat_r; [lra|apply le_INR; lia]).
    destruct (Rle_dec 0 (INR j * step m)); [|lra]. destruct (Rle_dec (INR j * step m) 1); [reflexivity|lra].
Qed.

(** ** angles: mean of cos^2k over a turn *)
Fixpoint alpha (k : nat) : R := match k with O => 1 | S k' => (2 * INR (S k') - 1) / (2 * INR (S k')) * alpha k' end.
Fixpoint Sc (k : nat) (x : R) : R :=
  match k with O => x | S k' => (sin x * cos x * (cos x ^ 2) ^ k' + (2 * INR (S k') - 1) * Sc k' x) / (2 * INR (S k')) end.
Lemma Sc_der k x : derivable_pt_lim (Sc k) x ((cos x ^ 2) ^ k).
Proof.
  induction k as [|k IH].
  - simpl. apply (derivable_pt_lim_id x).
  - assert (P : INR (S k) <> 0) by (apply not_0_INR; lia).
    assert (DC : derivable_pt_lim (fun y => (cos y ^ 2) ^ k) x (INR k * (cos x ^ 2) ^ Init.Nat.pred k * (2 * cos x * - sin x))).
    { apply (derivable_pt_lim_comp (fun y => cos y ^ 2) (fun y => y ^ k)); [|apply derivable_pt_lim_pow].
      replace (2 * cos x * - sin x) with (INR 2 * cos x ^ Init.Nat.pred 2 * - sin x) by (simpl; ring).
      apply (derivable_pt_lim_comp cos (fun y => y ^ 2)); [apply derivable_pt_lim_cos|apply derivable_pt_lim_pow]. }
    set (a := INR (S k)) in *.
    assert (E : (cos x ^ 2) ^ S k = / (2 * a) * (((cos x * cos x + sin x * - sin x) * (cos x ^ 2) ^ k + sin x * cos x * (INR k * (cos x ^ 2) ^ Init.Nat.pred k * (2 * cos x * - sin x))) +
       (2 * a - 1) * (cos x ^ 2) ^ k)).
    { assert (A : INR k * (cos x ^ 2) ^ Init.Nat.pred k * cos x ^ 2 = INR k * (cos x ^ 2) ^ k).
      { destruct k as [|k']; [simpl; ring|]. simpl Init.Nat.pred. rewrite Rmult_assoc. f_equal. rewrite Rmult_comm. reflexivity. }
      pose proof (sin2_cos2 x) as T. unfold Rsqr in T.
      replace (sin x * cos x * (INR k * (cos x ^ 2) ^ Init.Nat.pred k * (2 * cos x * - sin x))) with (-2 * (sin x * sin x) * (INR k * (cos x ^ 2) ^ Init.Nat.pred k * cos x ^ 2)) by ring.
      rewrite A. replace (sin x * sin x) with (1 - cos x * cos x) by lra. replace (sin x * - sin x) with (cos x * cos x - 1) by lra.
      change ((cos x ^ 2) ^ S k) with (cos x ^ 2 * (cos x ^ 2) ^ k). replace (INR k) with (a - 1) by (unfold a; rewrite S_INR; ring). field. exact P. }
    rewrite E.
    eapply derivable_pt_lim_ext; [|apply (derivable_pt_lim_scal (fun y => sin y * cos y * (cos y ^ 2) ^ k + (2 * a - 1) * Sc k y) (/ (2 * a)))].
    { intros y. change (mult_real_fct (/ (2 * a)) (fun y0 => sin y0 * cos y0 * (cos y0 ^ 2) ^ k + (2 * a - 1) * Sc k y0) y = (sin y * cos y * (cos y ^ 2) ^ k + (2 * a - 1) * Sc k y) / (2 * a)).
      unfold mult_real_fct. field. exact P. }
    apply (derivable_pt_lim_plus (fun y => sin y * cos y * (cos y ^ 2) ^ k) (fun y => (2 * a - 1) * Sc k y)).
    + apply (derivable_pt_lim_mult (fun y => sin y * cos y) (fun y => (cos y ^ 2) ^ k)); [|exact DC].
      apply (derivable_pt_lim_mult sin cos); [apply derivable_pt_lim_sin|apply derivable_pt_lim_cos].
    + apply (derivable_pt_lim_scal (Sc k)). exact IH.
Qed.
Lemma Sc_turn k x : Sc k (x + 2 * PI) - Sc k x = 2 * PI * alpha k.
Proof.
  induction k; [simpl; ring|].
  change (Sc (S k) (x + 2 * PI)) with ((sin (x + 2 * PI) * cos (x + 2 * PI) * (cos (x + 2 * PI) ^ 2) ^ k + (2 * INR (S k) - 1) * Sc k (x + 2 * PI)) / (2 * INR (S k))).
  change (Sc (S k) x) with ((sin x * cos x * (cos x ^ 2) ^ k + (2 * INR (S k) - 1) * Sc k x) / (2 * INR (S k))).
  change (alpha (S k)) with ((2 * INR (S k) - 1) / (2 * INR (S k)) * alpha k).
  replace (sin (x + 2 * PI)) with (sin x) by (rewrite sin_plus, sin_2PI, cos_2PI; ring). replace (cos (x + 2 * PI)) with (cos x) by (rewrite cos_plus, sin_2PI, cos_2PI; ring).
  replace (Sc k (x + 2 * PI)) with (2 * PI * alpha k + Sc k x) by lra. field. apply not_0_INR. lia.
Qed.
Lemma angle_limit k phi : Un_cv (fun m => tot (fun n => (cos (2 * PI * (INR n * step m) - phi) ^ 2) ^ k * step m) (S m)) (alpha k).
Proof.
  pose proof PI_RGT_0 as PP. apply (cv_bound _ _ (2 * INR k * (2 * PI) + 4) 0). intros m _. pose proof (step_pos m) as D0. pose proof (pos_INR k) as K0.
  assert (CB : forall x, Rabs (cos x) <= 1) by (intros x; apply Rabs_le; pose proof (COS_bound x); lra).
  assert (B : Rabs (tot (fun j => win (fun x => (cos x ^ 2) ^ k) (- phi) (- phi + 2 * PI) (- phi + INR j * (2 * PI * step m)) * (2 * PI * step m)) (S m) - (Sc k (- phi + 2 * PI) - Sc k (- phi)))
    <= (2 * INR k * ((- phi + 2 * PI) - (- phi)) + 4 * 1) * (2 * PI * step m)).
  { apply riemann; try lra.
    - intros a b Ha Hb. eapply Rle_trans; [apply pow_lip; apply pow_le1; apply CB|].
      replace (2 * INR k * Rabs (a - b)) with (INR k * (2 * Rabs (a - b))) by ring. apply Rmult_le_compat_l; auto.
      eapply Rle_trans; [apply (pow_lip (cos a) (cos b) 2); apply CB|]. change (INR 2) with 2. apply Rmult_le_compat_l; [lra|].
      destruct (Req_dec a b) as [->|NE]; [rewrite !Rminus_diag_eq, !Rabs_R0 by reflexivity; lra|].
      assert (W : forall u v, u < v -> Rabs (cos u - cos v) <= Rabs (u - v)).
      { intros u v UV. destruct (MVT_cor2 cos (fun y => - sin y) u v UV) as (c & E & _); [intros; apply derivable_pt_lim_cos|].
        rewrite Rabs_minus_sym, E, Rabs_mult, Rabs_Ropp, (Rabs_minus_sym u v). rewrite <- (Rmult_1_l (Rabs (v - u))) at 2. apply Rmult_le_compat_r; [apply Rabs_pos|].
        apply Rabs_le. pose proof (SIN_bound c). lra. }
      destruct (Rlt_le_dec a b); [apply W; lra|]. rewrite (Rabs_minus_sym (cos a)), (Rabs_minus_sym a). apply W. lra.
    - intros a _. apply pow_le1, pow_le1, CB.
    - intros a _. apply Sc_der.
    - apply Rmult_lt_0_compat; lra.
    - rewrite <- (Rmult_1_r (2 * PI)) at 1. rewrite <- (step_mul m). lra. }
  rewrite Sc_turn in B.
  replace (tot (fun j => win (fun x => (cos x ^ 2) ^ k) (- phi) (- phi + 2 * PI) (- phi + INR j * (2 * PI * step m)) * (2 * PI * step m)) (S m))
    with (2 * PI * tot (fun n => (cos (2 * PI * (INR n * step m) - phi) ^ 2) ^ k * step m) (S m)) in B.
  - rewrite <- Rmult_minus_distr_l, Rabs_mult, (Rabs_pos_eq (2 * PI)) in B by lra. apply (Rmult_le_reg_l (2 * PI)); [lra|]. eapply Rle_trans; [exact B|]. apply Req_le. ring.
  - rewrite <- tot_scal. apply tot_ext. intros j Hj.
    assert (J0 : 0 <= INR j * step m) by (apply Rmult_le_pos; [apply pos_INR|lra]).
    assert (J1 : INR j * step m <= 1) by (rewrite <- (step_mul m); apply Rmult_le_compat_r; [lra|apply le_INR; lia]).
    replace (- phi + INR j * (2 * PI * step m)) with (2 * PI * (INR j * step m) - phi) by ring. set (q := INR j * step m) in *.
    assert (0 <= 2 * PI * q) by (apply Rmult_le_pos; lra). assert (2 * PI * q <= 2 * PI * 1) by (apply Rmult_le_compat_l; lra).
    unfold win. destruct (Rle_dec (- phi) (2 * PI * q - phi)); [|lra]. destruct (Rle_dec (2 * PI * q - phi) (- phi + 2 * PI)); [|lra]. ring.
Qed.
Lemma alpha_beta k : alpha k * beta k = / (2 * INR k + 1).
Proof.
  induction k; [simpl; field|]. 
  change (alpha (S k)) with ((2 * INR (S k) - 1) / (2 * INR (S k)) * alpha k). change (beta (S k)) with (2 * INR (S k) / (2 * INR (S k) + 1) * beta k).
  replace ((2 * INR (S k) - 1) / (2 * INR (S k)) * alpha k * (2 * INR (S k) / (2 * INR (S k) + 1) * beta k))
    with ((2 * INR (S k) - 1) / (2 * INR (S k)) * (2 * INR (S k) / (2 * INR (S k) + 1)) * (alpha k * beta k)) by ring.
  rewrite IHk, S_INR. pose proof (pos_INR k). field. lra.
Qed.
