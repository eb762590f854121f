(** The spherical correlation of range 1 in the plane: an average over
    directions of the correlation [c1] on the line, which is the
    autocorrelation of the identity cut to [-1/2, 1/2]. *)
From Coq Require Import List ZArith Bool Reals Lra Lia.
From Verif Require Import Base Num RealSpec RealStat SpecGram_proofs5 LinAlg PosDef.
Import ListNotations.
Local Open Scope R_scope.

Definition c1 (x : R) : R := if Rle_dec x 1 then 1 - 3 * x + 2 * x ^ 3 else 0.
Definition c3 (x : R) : R := if Rle_dec x 1 then 1 - 3 / 2 * x + 1 / 2 * x ^ 3 else 0.

(** ** on the line *)
Definition cut (x : R) : R := if Rle_dec (- (1 / 2)) x then if Rle_dec x (1 / 2) then x else 0 else 0.
Definition node (m k : nat) : R := - INR (S m) + INR k * step m.
Definition line_kernel (m : nat) (s t : R) : R := 12 * tot (fun k => cut (node m k - s) * cut (node m k - t) * step m) (2 * (S m * S m)).

Lemma line_kernel_psd m : psd (line_kernel m).
Proof.
  unfold line_kernel. apply psd_scal; [lra|]. apply psd_sum. intros k _. apply (psd_ext (fun s t => step m * (cut (node m k - s) * cut (node m k - t)))); [intros; ring|].
  apply psd_scal; [left; apply step_pos|]. apply (psd_prod (fun s => cut (node m k - s))).
Qed.
Lemma line_kernel_sym m s t : line_kernel m s t = line_kernel m t s.
Proof. unfold line_kernel. f_equal. apply tot_ext. intros k _. ring. Qed.

Lemma line_limit_le s t : s <= t -> Un_cv (fun m => line_kernel m s t) (c1 (t - s)).
Proof.
  intros ST. unfold c1. destruct (Rle_dec (t - s) 1) as [C|C].
  - set (al := t - 1 / 2). set (be := s + 1 / 2).
    set (g := fun y => (y - s) * (y - t)). set (H := fun y => y ^ 3 / 3 - (s + t) * (y ^ 2 / 2) + s * t * y).
    set (m0 := Z.to_nat (up (Rabs s + Rabs t + 1))).
    apply (cv_bound _ _ 24 m0). intros m Hm.
    assert (M : Rabs s + Rabs t + 1 <= INR (S m)).
    { apply Rle_trans with (INR m0); [|apply le_INR; lia]. unfold m0. destruct (archimed (Rabs s + Rabs t + 1)) as [U _]. pose proof (Rabs_pos s). pose proof (Rabs_pos t).
      rewrite INR_IZR_INZ, Z2Nat.id; [lra|]. apply le_IZR. change (IZR 0) with 0. lra. }
    pose proof (Rle_abs s) as S1. pose proof (Rle_abs t) as T1. pose proof (Rle_abs (- s)) as S2. pose proof (Rle_abs (- t)) as T2. rewrite Rabs_Ropp in S2, T2.
    pose proof (step_pos m) as D0.
    assert (E : line_kernel m s t = 12 * tot (fun k => win g al be (- INR (S m) + INR k * step m) * step m) (2 * (S m * S m))).
    { unfold line_kernel. f_equal. apply tot_ext. intros k _. f_equal. fold (node m k). set (y := node m k). unfold cut, win, g, al, be.
      repeat match goal with |- context [Rle_dec ?a ?b] => destruct (Rle_dec a b) end; try lra; ring. }
    rewrite E.
    assert (B : Rabs (tot (fun k => win g al be (- INR (S m) + INR k * step m) * step m) (2 * (S m * S m)) - (H be - H al)) <= (1 * (be - al) + 4 * (1 / 4)) * step m).
    { apply riemann.
      - unfold al, be; lra.
      - lra.
      - intros a b Ha Hb. unfold g. replace ((a - s) * (a - t) - (b - s) * (b - t)) with ((a - b) * ((a - s) + (b - t))) by ring.
        rewrite Rabs_mult, Rmult_comm. apply Rmult_le_compat_r; [apply Rabs_pos|]. unfold al, be in *. apply Rabs_le. lra.
      - intros a Ha. unfold g, al, be in *. apply Rabs_le. assert (-(1/2) <= a - s <= 1/2) by lra. assert (-(1/2) <= a - t <= 1/2) by lra. split; nra.
      - intros a _. unfold H, g. 
        replace ((a - s) * (a - t)) with (3 * a ^ 2 / 3 - (s + t) * (2 * a ^ 1 / 2) + s * t * 1) by field.
        apply (derivable_pt_lim_plus (fun y => y ^ 3 / 3 - (s + t) * (y ^ 2 / 2)) (fun y => s * t * y)).
        + apply (derivable_pt_lim_minus (fun y => y ^ 3 / 3) (fun y => (s + t) * (y ^ 2 / 2))).
          * unfold Rdiv. replace (3 * a ^ 2 * / 3) with (/ 3 * (INR 3 * a ^ Init.Nat.pred 3)) by (simpl; field).
            eapply derivable_pt_lim_ext; [|apply (derivable_pt_lim_scal (fun y => y ^ 3) (/ 3)); apply derivable_pt_lim_pow]. intros; unfold mult_real_fct; ring.
          * apply (derivable_pt_lim_scal (fun y => y ^ 2 / 2)). unfold Rdiv. replace (2 * a ^ 1 * / 2) with (/ 2 * (INR 2 * a ^ Init.Nat.pred 2)) by (simpl; field).
            eapply derivable_pt_lim_ext; [|apply (derivable_pt_lim_scal (fun y => y ^ 2) (/ 2)); apply derivable_pt_lim_pow]. intros; unfold mult_real_fct; ring.
        + apply (derivable_pt_lim_scal (fun y => y)). apply derivable_pt_lim_id.
      - exact D0.
      - unfold al. lra.
      - rewrite mult_INR, mult_INR. change (INR 2) with 2. replace (2 * (INR (S m) * INR (S m)) * step m) with (2 * INR (S m) * (INR (S m) * step m)) by ring. rewrite step_mul. unfold be. lra. }
    assert (V : 12 * (H be - H al) = 1 - 3 * (t - s) + 2 * (t - s) ^ 3) by (unfold H, be, al; field).
    rewrite <- V, <- Rmult_minus_distr_l, Rabs_mult, (Rabs_pos_eq 12) by lra.
    assert ((1 * (be - al) + 4 * (1 / 4)) * step m <= 2 * step m) by (apply Rmult_le_compat_r; [lra|unfold al, be; lra]). lra.
  - apply (cv_ext (fun _ => 0)); [|apply cv_const]. intros m. unfold line_kernel.
    rewrite (tot_ext _ (fun _ => 0)); [rewrite tot_zero; ring|]. intros k _. set (y := node m k). unfold cut.
    repeat match goal with |- context [Rle_dec ?a ?b] => destruct (Rle_dec a b) end; try lra; ring.
Qed.
Lemma line_limit s t : Un_cv (fun m => line_kernel m s t) (c1 (Rabs (s - t))).
Proof.
  destruct (Rle_lt_dec s t).
  - rewrite Rabs_left1 by lra. replace (- (s - t)) with (t - s) by ring. apply line_limit_le. auto.
  - rewrite Rabs_pos_eq by lra. apply (cv_ext (fun m => line_kernel m t s)); [intros; apply line_kernel_sym|]. apply line_limit_le. lra.
Qed.
Lemma c1_psd : psd (fun s t => c1 (Rabs (s - t))).
Proof. exact (psd_limit line_kernel _ line_kernel_psd line_limit). Qed.
