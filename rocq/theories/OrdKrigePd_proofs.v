(** Ordinary kriging with the spherical variogram always has a unique solution,
    because the spherical correlation is positive semidefinite. *)
From Coq Require Import List ZArith Bool Reals Lra Lia.
From Verif Require Import Base Num RealSpec RealStat SpecGram_proofs5 LinAlg PosDef PosDef2 PosDef4 Idw_spec Kriging_model OrdKrige_model OrdKrige_spec
  OrdKrige_proofs OrdKrige_proofs2 OrdKrige_proofs3.
Import ListNotations.
Local Open Scope R_scope.

Section Sph.
Variables (sill range nugget : R) (x y : list R).
Hypothesis HR : 0 < range.
Notation g := (spherical_curve sill range nugget).
Notation n := (List.length x).
Let corr (i j : nat) : R := c3 (rdist (rget x i) (rget y i) (rget x j) (rget y j) / range).

Lemma curve_c3 d : 0 <= d -> g d = sill - (sill - nugget) * c3 (d / range).
Proof using HR.
  intros Hd. unfold spherical_curve, c3. destruct (Rle_dec d range) as [A|A], (Rle_dec (d / range) 1) as [B|B]; try field; try lra.
  - destruct B. apply (Rmult_le_reg_r range); auto. replace (d / range * range) with d by (field; lra). lra.
  - destruct A. apply (Rmult_le_compat_r range) in B; [|lra]. replace (d / range * range) with d in B by (field; lra). lra.
Qed.
Lemma rdist_pos a b c d : 0 <= rdist a b c d.
Proof using. apply sqrt_pos. Qed.
Lemma rdist_refl a b : rdist a b a b = 0.
Proof using. unfold rdist. rewrite !Rminus_diag_eq by reflexivity. rewrite Rmult_0_l, Rplus_0_l. apply sqrt_0. Qed.
Lemma gam_corr i j : gam g x y i j = sill - (sill - nugget) * corr i j - nugget * delta i j.
Proof using HR.
  unfold gam, corr, delta. destruct (Nat.eqb_spec i j) as [->|NE].
  - rewrite rdist_refl. unfold Rdiv. rewrite Rmult_0_l. unfold c3. destruct (Rle_dec 0 1); [|lra]. ring.
  - rewrite curve_c3 by apply rdist_pos. ring.
Qed.
(** the correlation of scaled points *)
Lemma rdist_div a b c d : rdist a b c d / range = sqrt ((a / range - c / range) * (a / range - c / range) + (b / range - d / range) * (b / range - d / range)).
Proof using HR.
  unfold rdist. replace ((a / range - c / range) * (a / range - c / range) + (b / range - d / range) * (b / range - d / range))
    with (((a - c) * (a - c) + (b - d) * (b - d)) * (/ range * / range)) by (field; lra).
  rewrite sqrt_mult_alt by (apply Rplus_le_le_0_compat; apply Rle_0_sqr). rewrite sqrt_square by (left; apply Rinv_0_lt_compat; auto). reflexivity.
Qed.
Lemma corr_psd N (c : nat -> R) (p : nat -> R * R) : 0 <= tot (fun i => tot (fun j => c i * c j * c3 (rdist (fst (p i)) (snd (p i)) (fst (p j)) (snd (p j)) / range)) N) N.
Proof using HR.
  pose proof (spherical_psd N c (fun i => (fst (p i) / range, snd (p i) / range))) as H. cbn [fst snd] in H.
  rewrite (tot_ext _ (fun i => tot (fun j => c i * c j * c3 (rdist (fst (p i)) (snd (p i)) (fst (p j)) (snd (p j)) / range)) N)) in H; [exact H|].
  intros i _. apply tot_ext. intros j _. rewrite rdist_div. reflexivity.
Qed.
Lemma gam_quad c : tot (fun i => tot (fun j => c i * c j * gam g x y i j) n) n =
  sill * (tot c n * tot c n) - (sill - nugget) * tot (fun i => tot (fun j => c i * c j * corr i j) n) n - nugget * tot (fun i => c i * c i) n.
Proof using HR.
  rewrite tot_prod, <- !tot_scal, <- !tot_sub. apply tot_ext. intros i Hi.
  rewrite <- !tot_scal, <- tot_sub. replace (nugget * (c i * c i)) with (tot (fun j => delta i j * (nugget * (c i * c j))) n) by (rewrite tot_delta_l by auto; reflexivity).
  rewrite <- tot_sub. apply tot_ext. intros j _. rewrite gam_corr. ring.
Qed.
Hypothesis HN : 0 <= nugget <= sill.
Lemma gam_quad_le c : tot c n = 0 -> tot (fun i => tot (fun j => c i * c j * gam g x y i j) n) n <= - (nugget * tot (fun i => c i * c i) n).
Proof using HR HN.
  intros Z. rewrite gam_quad, Z. pose proof (corr_psd n c (fun i => (rget x i, rget y i))) as P. cbn [fst snd] in P. fold corr in P.
  assert (0 <= (sill - nugget) * tot (fun i => tot (fun j => c i * c j * corr i j) n) n) by (apply Rmult_le_pos; [lra|exact P]). lra.
Qed.
Lemma sph_regular : 0 < nugget -> (1 <= n)%nat -> regular g x y.
Proof using HR HN.
  intros NG N1 w mu Z R. 
  assert (Q : tot (fun i => tot (fun j => w i * w j * gam g x y i j) n) n = 0).
  { rewrite (tot_ext _ (fun i => mu * w i)); [rewrite tot_scal, Z; ring|]. intros i Hi. specialize (R i Hi).
    rewrite (tot_ext _ (fun j => w i * (gam g x y i j * w j))) by (intros; ring). rewrite tot_scal. replace (tot (fun j => gam g x y i j * w j) n) with mu by lra. ring. }
  pose proof (gam_quad_le w Z) as L. rewrite Q in L.
  assert (SQ : forall i, (i < n)%nat -> 0 <= w i * w i) by (intros; apply Rle_0_sqr).
  assert (W : forall i, (i < n)%nat -> w i = 0).
  { intros i Hi. pose proof (tot_ge_one (fun i => w i * w i) i n Hi SQ) as G. cbv beta in G.
    assert (nugget * (w i * w i) <= nugget * tot (fun i => w i * w i) n) by (apply Rmult_le_compat_l; lra).
    assert (nugget * (w i * w i) <= 0) by lra. assert (w i * w i = 0). { specialize (SQ i Hi). assert (0 <= nugget * (w i * w i)) by (apply Rmult_le_pos; lra). apply (Rmult_eq_reg_l nugget); lra. }
    apply Rmult_integral in H1. lra. }
  split; [exact W|]. specialize (R 0%nat N1). rewrite (tot_ext _ (fun _ => 0)), tot_zero in R; [lra|]. intros j Hj. rewrite (W j Hj). ring.
Qed.
(** the estimate at a place away from all stations *)
Lemma est_var_low p q w : tot w n = 1 -> (forall i, (i < n)%nat -> 1 / 10 ^ 10 < rdist p q (rget x i) (rget y i)) ->
  nugget * (1 + tot (fun i => w i * w i) n) <= est_var g x y p q w.
Proof using HR HN.
  intros S1 Far.
  set (pt := fun i : nat => match i with O => (p, q) | S k => (rget x k, rget y k) end).
  set (c := fun i : nat => match i with O => - 1 | S k => w k end).
  pose proof (corr_psd (S n) c pt) as P.
  set (k0 := fun i => c3 (rdist p q (rget x i) (rget y i) / range)).
  assert (E : tot (fun i => tot (fun j => c i * c j * c3 (rdist (fst (pt i)) (snd (pt i)) (fst (pt j)) (snd (pt j)) / range)) (S n)) (S n) =
    1 - 2 * tot (fun i => w i * k0 i) n + tot (fun i => tot (fun j => w i * w j * corr i j) n) n).
  { rewrite tot_shift, tot_shift. unfold c at 1 2, pt at 1 2 3 4. cbn [fst snd]. rewrite rdist_refl. 
    assert (C0 : c3 (0 / range) = 1) by (unfold Rdiv; rewrite Rmult_0_l; unfold c3; destruct (Rle_dec 0 1); [ring|lra]). rewrite C0.
    rewrite (tot_ext (fun i => c 0%nat * c (S i) * _) (fun i => -1 * (w i * k0 i))) by (intros i _; unfold c, pt, k0; cbn [fst snd]; ring).
    rewrite (tot_ext (fun i => tot _ (S n)) (fun i => -1 * (w i * k0 i) + tot (fun j => w i * w j * corr i j) n)).
    - rewrite tot_add, !tot_scal. ring.
    - intros i _. rewrite tot_shift. unfold c, pt, corr. cbn [fst snd]. f_equal. unfold k0.
      replace (rdist (rget x i) (rget y i) p q) with (rdist p q (rget x i) (rget y i)) by (unfold rdist; f_equal; ring). ring. }
  rewrite E in P.
  assert (G0 : forall i, (i < n)%nat -> gam0 g x y p q i = sill - (sill - nugget) * k0 i).
  { intros i Hi. unfold gam0. cbv zeta. specialize (Far i Hi). destruct (Rle_dec _ _); [lra|]. apply curve_c3, rdist_pos. }
  unfold est_var. rewrite gam_quad, S1.
  rewrite (tot_ext (fun i => w i * gam0 g x y p q i) (fun i => sill * w i - (sill - nugget) * (w i * k0 i))) by (intros i Hi; rewrite G0 by auto; ring).
  rewrite tot_sub, !tot_scal, S1. 
  assert (0 <= (sill - nugget) * (1 - 2 * tot (fun i => w i * k0 i) n + tot (fun i => tot (fun j => w i * w j * corr i j) n) n)) by (apply Rmult_le_pos; lra). lra.
Qed.
Lemma squares_low w : (1 <= n)%nat -> tot w n = 1 -> / INR n <= tot (fun i => w i * w i) n.
Proof using.
  clear HR HN. intros N1 S1. assert (N0 : 0 < INR n) by (apply lt_0_INR; lia).
  pose proof (tot_nonneg (fun i => (w i - / INR n) * (w i - / INR n)) n (fun i _ => Rle_0_sqr _)) as P.
  rewrite (tot_ext _ (fun i => w i * w i + ((-2 * / INR n) * w i + / INR n * / INR n))) in P by (intros; ring).
  rewrite !tot_add, tot_scal, S1, tot_const in P. rewrite <- Rmult_assoc, Rinv_r in P by lra. lra.
Qed.
End Sph.
