(** Kriging without nugget: stations at different places determine the weights. *)
From Coq Require Import List ZArith Bool Reals Lra Lia.
From Verif Require Import Base Num RealSpec RealStat SpecGram_proofs5 LinAlg PosDef PosDef2 PosDef4 PosDef5 Idw_spec Kriging_model OrdKrige_model OrdKrige_spec
  OrdKrige_proofs OrdKrige_proofs2 OrdKrige_proofs3 OrdKrigePd_proofs KrigeWin_spec KrigeDistinct_spec.
Import ListNotations.
Local Open Scope R_scope.

Section Sph.
Variables (sill range nugget : R).
Hypothesis HR : 0 < range.
Notation g := (spherical_curve sill range nugget).

Lemma corr_pd N (c : nat -> R) (p : nat -> R * R) : (forall i k, (i < k < N)%nat -> p i <> p k) ->
  tot (fun i => tot (fun j => c i * c j * c3 (rdist (fst (p i)) (snd (p i)) (fst (p j)) (snd (p j)) / range)) N) N <= 0 ->
  forall i, (i < N)%nat -> c i = 0.
Proof using HR.
  intros D Z. apply (spherical_pd N c (fun i => (fst (p i) / range, snd (p i) / range))).
  - intros i k Hi Hk NE E. injection E as E1 E2. assert (A : fst (p i) = fst (p k)) by (apply (Rmult_eq_reg_r (/ range)); [exact E1|apply Rinv_neq_0_compat; lra]).
    assert (B : snd (p i) = snd (p k)) by (apply (Rmult_eq_reg_r (/ range)); [exact E2|apply Rinv_neq_0_compat; lra]).
    assert (P : p i = p k) by (destruct (p i), (p k); cbn [fst snd] in *; congruence).
    destruct (Nat.lt_ge_cases i k); [apply (D i k); auto; lia|apply (D k i); auto; lia].
  - eapply Rle_trans; [|exact Z]. apply Req_le. unfold form, cplane. cbn [fst snd]. apply tot_ext. intros i _. apply tot_ext. intros j _. rewrite (rdist_div range HR). reflexivity.
Qed.
Hypothesis HN : 0 <= nugget <= sill.
Hypothesis HS : 0 < sill.

(** equality in the quadratic form *)
Lemma gam_quad_zero x y c : 0 < nugget \/ apart x y -> tot c (length x) = 0 ->
  0 <= tot (fun i => tot (fun j => c i * c j * gam g x y i j) (length x)) (length x) -> forall i, (i < length x)%nat -> c i = 0.
Proof using HR HN HS.
  intros A Z Q. rewrite (gam_quad sill range nugget x y HR), Z in Q.
  pose proof (corr_psd range HR (length x) c (fun i => (rget x i, rget y i))) as P. cbn [fst snd] in P.
  set (C := tot (fun i => tot _ (length x)) (length x)) in *. set (W := tot (fun i => c i * c i) (length x)) in *.
  assert (W0 : 0 <= W) by (apply tot_nonneg; intros; apply Rle_0_sqr).
  assert (P1 : 0 <= (sill - nugget) * C) by (apply Rmult_le_pos; lra). assert (P2 : 0 <= nugget * W) by (apply Rmult_le_pos; lra).
  destruct (Rlt_le_dec 0 nugget) as [NG|NG].
  - assert (W1 : W = 0) by (apply (Rmult_eq_reg_l nugget); lra). intros i Hi.
    pose proof (tot_ge_one (fun i => c i * c i) i (length x) Hi (fun i _ => Rle_0_sqr (c i))) as G. cbv beta in G. fold W in G.
    pose proof (Rle_0_sqr (c i)) as S0. unfold Rsqr in S0. assert (c i * c i = 0) as S1 by lra. apply Rmult_integral in S1. lra.
  - assert (nugget = 0) by lra. subst nugget. destruct A as [A|A]; [lra|]. assert (C1 : C = 0) by (apply (Rmult_eq_reg_l sill); lra).
    apply (corr_pd (length x) c (fun i => (rget x i, rget y i))).
    + intros i k Hk E. injection E as E1 E2. destruct (A i k Hk); contradiction.
    + cbn [fst snd]. fold C. lra.
Qed.
Lemma sph_regular_apart x y : (1 <= length x)%nat -> 0 < nugget \/ apart x y -> regular g x y.
Proof using HR HN HS.
  intros N1 A w mu Z M. set (n := length x) in *.
  assert (Q : tot (fun i => tot (fun j => w i * w j * gam g x y i j) n) n = 0).
  { rewrite (tot_ext _ (fun i => mu * w i)); [rewrite tot_scal, Z; ring|]. intros i Hi. specialize (M i Hi).
    rewrite (tot_ext _ (fun j => w i * (gam g x y i j * w j))) by (intros; ring). rewrite tot_scal. fold n in M. replace (tot (fun j => gam g x y i j * w j) n) with mu by lra. ring. }
  assert (W : forall i, (i < n)%nat -> w i = 0) by (apply (gam_quad_zero x y w A Z); fold n; rewrite Q; lra).
  split; [exact W|]. specialize (M 0%nat N1). fold n in M. rewrite (tot_ext _ (fun _ => 0)), tot_zero in M; [lra|]. intros j Hj. rewrite (W j Hj). ring.
Qed.
(** the error variance is positive away from all stations *)
Lemma est_var_pos x y p q w : 0 < nugget \/ apart x y -> tot w (length x) = 1 -> (forall i, (i < length x)%nat -> 1 / 10 ^ 10 < rdist p q (rget x i) (rget y i)) ->
  0 < est_var g x y p q w.
Proof using HR HN HS.
  intros A S1 Far. destruct (Rlt_le_dec 0 nugget) as [NG|NG].
  { eapply Rlt_le_trans; [|apply (est_var_low sill range nugget x y HR HN); [exact S1|exact Far]].
    apply Rmult_lt_0_compat; [exact NG|]. assert (0 <= tot (fun i => w i * w i) (length x)) by (apply tot_nonneg; intros; apply Rle_0_sqr). lra. }
  assert (nugget = 0) by lra. subst nugget. destruct A as [A|A]; [lra|].
  pose proof (est_var_low sill range 0 x y HR HN p q w S1 Far) as L. rewrite Rmult_0_l in L. destruct L as [L|E]; [exact L|exfalso].
  set (n := length x) in *.
  set (pt := fun i : nat => match i with O => (p, q) | S k => (rget x k, rget y k) end).
  set (c := fun i : nat => match i with O => - 1 | S k => w k end).
  set (k0 := fun i => c3 (rdist p q (rget x i) (rget y i) / range)).
  set (corr := fun i j => c3 (rdist (rget x i) (rget y i) (rget x j) (rget y j) / range)).
  assert (F : tot (fun i => tot (fun j => c i * c j * c3 (rdist (fst (pt i)) (snd (pt i)) (fst (pt j)) (snd (pt j)) / range)) (S n)) (S n) =
    1 - 2 * tot (fun i => w i * k0 i) n + tot (fun i => tot (fun j => w i * w j * corr i j) n) n).
  { rewrite tot_shift, tot_shift. unfold c at 1 2, pt at 1 2 3 4. cbn [fst snd]. rewrite rdist_refl. 
    assert (C0 : c3 (0 / range) = 1) by (unfold Rdiv; rewrite Rmult_0_l; unfold c3; destruct (Rle_dec 0 1); [ring|lra]). rewrite C0.
    rewrite (tot_ext (fun i => c 0%nat * c (S i) * _) (fun i => -1 * (w i * k0 i))) by (intros i _; unfold c, pt, k0; cbn [fst snd]; ring).
    rewrite (tot_ext (fun i => tot _ (S n)) (fun i => -1 * (w i * k0 i) + tot (fun j => w i * w j * corr i j) n)).
    - rewrite tot_add, !tot_scal. ring.
    - intros i _. rewrite tot_shift. unfold c, pt, corr. cbn [fst snd]. f_equal. unfold k0.
      replace (rdist (rget x i) (rget y i) p q) with (rdist p q (rget x i) (rget y i)) by (unfold rdist; f_equal; ring). ring. }
  assert (G0 : forall i, (i < n)%nat -> gam0 (spherical_curve sill range 0) x y p q i = sill - sill * k0 i).
  { intros i Hi. unfold gam0. cbv zeta. specialize (Far i Hi). destruct (Rle_dec _ _); [lra|]. rewrite (curve_c3 sill range 0 HR) by apply rdist_pos. unfold k0. ring. }
  assert (V : est_var (spherical_curve sill range 0) x y p q w = sill * (1 - 2 * tot (fun i => w i * k0 i) n + tot (fun i => tot (fun j => w i * w j * corr i j) n) n)).
  { unfold est_var. rewrite (gam_quad sill range 0 x y HR). fold n. rewrite S1.
    rewrite (tot_ext (fun i => w i * gam0 (spherical_curve sill range 0) x y p q i) (fun i => sill * w i - sill * (w i * k0 i))) by (intros i Hi; rewrite G0 by auto; ring).
    rewrite tot_sub, !tot_scal, S1. unfold corr. ring. }
  rewrite <- E in V. symmetry in V. apply Rmult_integral in V. destruct V as [V|V]; [lra|].
  assert (c 0%nat = 0); [|unfold c in *; lra].
  apply (corr_pd (S n) c pt); [|rewrite F, V; lra|lia].
  intros i k Hk EP. destruct i as [|i], k as [|k]; try lia.
  - specialize (Far k ltac:(unfold n in *; lia)). unfold pt in EP. injection EP as E1 E2. rewrite E1, E2, rdist_refl in Far. assert (0 < 1 / 10 ^ 10) by (apply Rdiv_lt_0_compat; [lra|apply pow_lt; lra]). lra.
  - unfold pt in EP. injection EP as E1 E2. destruct (A i k ltac:(fold n; lia)); contradiction.
Qed.
End Sph.

Lemma apart_only x y u : length y = length x -> apart x y -> NoDup u -> (forall i, In i u -> (i < length x)%nat) -> apart (only u x) (only u y).
Proof.
  intros LY A N H i j Hij. unfold only in *. rewrite map_length in Hij.
  assert (G : forall (l : list R) a, (a < length u)%nat -> rget (map (rget l) u) a = rget l (nth a u 0%nat)).
  { intros l a Ha. unfold rget at 1. rewrite (get_map _ 0%nat) by exact Ha. reflexivity. }
  rewrite !G by lia. set (a := nth i u 0%nat). set (b := nth j u 0%nat).
  assert (NE : a <> b) by (intros E; apply (NoDup_nth u 0%nat) in E; [lia|exact N|lia|lia]).
  assert (Ha : (a < length x)%nat) by (apply H, nth_In; lia). assert (Hb : (b < length x)%nat) by (apply H, nth_In; lia).
  destruct (Nat.lt_ge_cases a b); [apply A; lia|]. destruct (A b a ltac:(lia)) as [E|E]; [left|right]; congruence.
Qed.
Lemma apart_dec x y : apart x y \/ exists i j, (i < j < length x)%nat /\ rget x i = rget x j /\ rget y i = rget y j.
Proof.
  assert (H : forall n, (forall i j, (i < j < n)%nat -> rget x i <> rget x j \/ rget y i <> rget y j) \/ exists i j, (i < j < n)%nat /\ rget x i = rget x j /\ rget y i = rget y j).
  { induction n as [|n [IH|(i & j & A & B)]]; [left; intros; lia| |right; exists i, j; split; [lia|exact B]].
    assert (K : forall m, (forall i, (i < m)%nat -> rget x i <> rget x n \/ rget y i <> rget y n) \/ exists i, (i < m)%nat /\ rget x i = rget x n /\ rget y i = rget y n).
    { induction m as [|m [J|(i & A & B)]]; [left; intros; lia| |right; exists i; split; [lia|exact B]].
      destruct (Req_EM_T (rget x m) (rget x n)) as [E|E]; [destruct (Req_EM_T (rget y m) (rget y n)) as [F|F]|].
      - right. exists m. split; [lia|auto].
      - left. intros i Hi. destruct (Nat.eq_dec i m) as [->|]; [auto|apply J; lia].
      - left. intros i Hi. destruct (Nat.eq_dec i m) as [->|]; [auto|apply J; lia]. }
    destruct (K n) as [J|(i & A & B)].
    - left. intros i j Hij. destruct (Nat.eq_dec j n) as [->|]; [apply J; lia|apply IH; lia].
    - right. exists i, n. split; [lia|exact B]. }
  exact (H (length x)).
Qed.
