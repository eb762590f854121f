(** Positive definiteness of the spherical correlation in the plane, over the
    reals and without measure theory: finite sums of products are positive
    semidefinite, and so is every pointwise limit of them. *)
From Coq Require Import List ZArith Bool Reals Lra Lia.
From Verif Require Import Base Num RealSpec RealStat SpecGram_proofs5 LinAlg.
Import ListNotations.
Local Open Scope R_scope.

Definition psd {A : Type} (k : A -> A -> R) : Prop :=
  forall n (c : nat -> R) (p : nat -> A), 0 <= tot (fun i => tot (fun j => c i * c j * k (p i) (p j)) n) n.

Lemma tot_scal_r g c n : tot (fun i => g i * c) n = tot g n * c.
Proof. rewrite Rmult_comm, <- tot_scal. apply tot_ext. intros; ring. Qed.
Lemma tot_sub g h n : tot (fun i => g i - h i) n = tot g n - tot h n.
Proof. induction n; [cbn; ring|]. rewrite !tot_S, IHn. ring. Qed.
Lemma tot_le g h n : (forall i, (i < n)%nat -> g i <= h i) -> tot g n <= tot h n.
Proof. induction n; intros H; [apply Rle_refl|]. rewrite !tot_S. apply Rplus_le_compat; [apply IHn; intros; apply H; lia|apply H; lia]. Qed.
Lemma tot_abs g n : Rabs (tot g n) <= tot (fun i => Rabs (g i)) n.
Proof.
  induction n; [cbn; rewrite Rabs_R0; apply Rle_refl|]. rewrite !tot_S. eapply Rle_trans; [apply Rabs_triang|]. lra.
Qed.
Lemma tot_tele (f : nat -> R) n : tot (fun i => f (S i) - f i) n = f n - f 0%nat.
Proof. induction n; [cbn; ring|]. rewrite tot_S, IHn. ring. Qed.

Lemma psd_prod {A} (f : A -> R) : psd (fun a b => f a * f b).
Proof.
  intros n c p. replace (tot _ n) with (tot (fun i => c i * f (p i)) n * tot (fun i => c i * f (p i)) n); [apply Rle_0_sqr|].
  rewrite tot_prod. apply tot_ext; intros i _. apply tot_ext; intros j _. ring.
Qed.
Lemma psd_sum {A} (k : nat -> A -> A -> R) m : (forall l, (l < m)%nat -> psd (k l)) -> psd (fun a b => tot (fun l => k l a b) m).
Proof.
  intros H n c p. induction m as [|m IH].
  - rewrite (tot_ext _ (fun _ => 0)); [rewrite tot_zero; lra|]. intros i _. rewrite (tot_ext _ (fun _ => 0)); [apply tot_zero|]. intros j _. cbn. ring.
  - rewrite (tot_ext _ (fun i => tot (fun j => c i * c j * tot (fun l => k l (p i) (p j)) m) n + tot (fun j => c i * c j * k m (p i) (p j)) n)).
    + rewrite tot_add. apply Rplus_le_le_0_compat; [apply IH; intros; apply H; lia|apply H; lia].
    + intros i _. rewrite <- tot_add. apply tot_ext. intros j _. rewrite tot_S. ring.
Qed.
Lemma psd_scal {A} a (k : A -> A -> R) : 0 <= a -> psd k -> psd (fun x y => a * k x y).
Proof.
  intros Ha H n c p. replace (tot _ n) with (a * tot (fun i => tot (fun j => c i * c j * k (p i) (p j)) n) n).
  - apply Rmult_le_pos; [auto|apply H].
  - rewrite <- tot_scal. apply tot_ext; intros i _. rewrite <- tot_scal. apply tot_ext; intros j _. ring.
Qed.
Lemma psd_comp {A B} (g : B -> A) (k : A -> A -> R) : psd k -> psd (fun x y => k (g x) (g y)).
Proof. intros H n c p. exact (H n c (fun i => g (p i))). Qed.
Lemma psd_ext {A} (k k' : A -> A -> R) : (forall a b, k a b = k' a b) -> psd k -> psd k'.
Proof. intros E H n c p. rewrite <- (tot_ext (fun i => tot (fun j => c i * c j * k (p i) (p j)) n)); [apply H|]. intros i _. apply tot_ext. intros j _. rewrite E. reflexivity. Qed.

(** ** limits *)
Lemma cv_const c : Un_cv (fun _ => c) c.
Proof. intros e He. exists 0%nat. intros n _. unfold R_dist. rewrite Rminus_diag_eq, Rabs_R0 by reflexivity. exact He. Qed.
Lemma cv_ext u v l : (forall n, u n = v n) -> Un_cv u l -> Un_cv v l.
Proof. intros E H e He. destruct (H e He) as [N HN]. exists N. intros n Hn. rewrite <- E. auto. Qed.
Lemma cv_tot (u : nat -> nat -> R) l n : (forall i, (i < n)%nat -> Un_cv (fun m => u m i) (l i)) -> Un_cv (fun m => tot (u m) n) (tot l n).
Proof.
  induction n as [|n IH]; intros H; [cbn; apply cv_const|]. rewrite tot_S.
  apply (cv_ext (fun m => tot (u m) n + u m n)); [intros; rewrite tot_S; reflexivity|].
  apply CV_plus; [apply IH; intros; apply H; lia|apply H; lia].
Qed.
Lemma cv_nonneg u l : (forall n, 0 <= u n) -> Un_cv u l -> 0 <= l.
Proof.
  intros P H. destruct (Rle_lt_dec 0 l) as [|N]; auto. destruct (H (- l) ltac:(lra)) as [M HM]. specialize (HM M (le_n _)). unfold R_dist in HM.
  specialize (P M). rewrite Rabs_pos_eq in HM by lra. lra.
Qed.
Lemma psd_limit {A} (K : nat -> A -> A -> R) k : (forall m, psd (K m)) -> (forall a b, Un_cv (fun m => K m a b) (k a b)) -> psd k.
Proof.
  intros P H n c p. apply (cv_nonneg (fun m => tot (fun i => tot (fun j => c i * c j * K m (p i) (p j)) n) n)); [intros m; apply P|].
  apply cv_tot. intros i _. apply cv_tot. intros j _. apply CV_mult; [apply cv_const|apply H].
Qed.
Definition step (m : nat) : R := / INR (S m).
Lemma step_pos m : 0 < step m.
Proof. apply Rinv_0_lt_compat, lt_0_INR. lia. Qed.
Lemma step_mul m : INR (S m) * step m = 1.
Proof. apply Rinv_r, not_0_INR. lia. Qed.
Lemma step_small e : 0 < e -> exists N, forall m, (N <= m)%nat -> step m < e.
Proof.
  intros He. destruct (archimed_cor1 e He) as (N & H1 & H2). exists N. intros m Hm. eapply Rle_lt_trans; [|exact H1].
  apply Rinv_le_contravar; [apply lt_0_INR; lia|apply le_INR; lia].
Qed.
Lemma cv_bound (u : nat -> R) l c m0 : (forall m, (m0 <= m)%nat -> Rabs (u m - l) <= c * step m) -> Un_cv u l.
Proof.
  intros H e He. destruct (step_small (e / (Rabs c + 1))) as [N HN]; [apply Rdiv_lt_0_compat; auto; pose proof (Rabs_pos c); lra|].
  exists (Nat.max m0 N). intros m Hm. unfold R_dist. eapply Rle_lt_trans; [apply H; lia|].
  specialize (HN m ltac:(lia)). pose proof (step_pos m). pose proof (Rabs_pos c). pose proof (Rle_abs c).
  apply Rle_lt_trans with ((Rabs c + 1) * step m); [apply Rmult_le_compat_r; lra|].
  apply (Rmult_lt_compat_l (Rabs c + 1)) in HN; [|lra]. replace ((Rabs c + 1) * (e / (Rabs c + 1))) with e in HN by (field; lra). exact HN.
Qed.

(** ** Riemann sums over a window of an equidistant grid *)
Section Riemann.
Variables (g H : R -> R) (al be L G d y0 : R) (K : nat).
Hypothesis AB : al <= be.
Hypothesis L0 : 0 <= L.
Hypothesis Lip : forall a b, al <= a <= be -> al <= b <= be -> Rabs (g a - g b) <= L * Rabs (a - b).
Hypothesis Bd : forall a, al <= a <= be -> Rabs (g a) <= G.
Hypothesis Der : forall a, al <= a <= be -> derivable_pt_lim H a (g a).
Hypothesis D0 : 0 < d.
Hypothesis Start : y0 <= al.
Hypothesis End : be <= y0 + INR K * d.
Definition win (y : R) : R := if Rle_dec al y then if Rle_dec y be then g y else 0 else 0.
Definition clamp (y : R) : R := Rmax al (Rmin y be).

Lemma mvt a b : al <= a -> a < b -> b <= be -> exists c, H b - H a = g c * (b - a) /\ a < c < b.
Proof using Der. intros H1 H2 H3. apply MVT_cor2; auto. intros c Hc. apply Der. lra. Qed.
Lemma grow a b : al <= a -> a <= b -> b <= be -> Rabs (H b - H a) <= G * (b - a).
Proof using Der Bd.
  intros H1 H2 H3. destruct (Rle_lt_or_eq_dec a b H2) as [Lt| ->].
  - destruct (mvt a b H1 Lt H3) as (c & -> & Hc). rewrite Rabs_mult, (Rabs_pos_eq (b - a)) by lra. apply Rmult_le_compat_r; [lra|]. apply Bd. lra.
  - rewrite Rminus_diag_eq, Rabs_R0 by reflexivity. lra.
Qed.
Definition below (y : R) : R := if Rlt_dec y al then 1 else 0.
Definition upto (y : R) : R := if Rle_dec y be then 1 else 0.
Lemma clamp_mid y : al <= y <= be -> clamp y = y.
Proof using. intros. unfold clamp. rewrite Rmin_left, Rmax_right; lra. Qed.
Lemma clamp_lo y : y <= al -> al <= be -> clamp y = al.
Proof using. clear AB. intros. unfold clamp. rewrite Rmin_left, Rmax_left; lra. Qed.
Lemma clamp_hi y : be <= y -> al <= be -> clamp y = be.
Proof using. clear AB. intros. unfold clamp. rewrite Rmin_right, Rmax_right; lra. Qed.
Lemma cell y : Rabs (win y * d - (H (clamp (y + d)) - H (clamp y))) <=
  L * d * (clamp (y + d) - clamp y) + 2 * G * d * ((below y - below (y + d)) + (upto y - upto (y + d))).
Proof using AB L0 Lip Bd Der D0.
  assert (G0 : 0 <= G) by (eapply Rle_trans; [apply Rabs_pos|apply (Bd al); lra]).
  assert (GD : 0 <= G * d) by (apply Rmult_le_pos; lra). assert (LD : 0 <= L * d) by (apply Rmult_le_pos; lra).
  unfold win, below, upto.
  destruct (Rle_dec al y) as [A|A]; [destruct (Rle_dec y be) as [B|B]|]; [destruct (Rle_dec (y + d) be) as [C|C]| |].
  - destruct (Rlt_dec y al); [lra|]. destruct (Rlt_dec (y + d) al); [lra|].
    rewrite !clamp_mid by lra. destruct (mvt y (y + d)) as (c & -> & Hc); [lra..|].
    replace (g y * d - g c * (y + d - y)) with ((g y - g c) * d) by ring. rewrite Rabs_mult, (Rabs_pos_eq d) by lra.
    assert (Rabs (g y - g c) <= L * d).
    { eapply Rle_trans; [apply Lip; lra|]. apply Rmult_le_compat_l; [lra|]. rewrite Rabs_left; lra. }
    assert (Rabs (g y - g c) * d <= L * d * d) by (apply Rmult_le_compat_r; lra). lra.
  - destruct (Rlt_dec y al); [lra|]. destruct (Rlt_dec (y + d) al); [lra|].
    rewrite (clamp_mid y), (clamp_hi (y + d)) by lra. pose proof (grow y be A B (Rle_refl _)) as E.
    assert (Rabs (g y * d) <= G * d) by (rewrite Rabs_mult, (Rabs_pos_eq d) by lra; apply Rmult_le_compat_r; [lra|apply Bd; lra]).
    assert (G * (be - y) <= G * d) by (apply Rmult_le_compat_l; lra).
    assert (0 <= L * d * (be - y)) by (apply Rmult_le_pos; lra).
    unfold Rminus at 1. eapply Rle_trans; [apply Rabs_triang|]. rewrite Rabs_Ropp. lra.
  - destruct (Rlt_dec y al); [lra|]. destruct (Rlt_dec (y + d) al); [lra|]. destruct (Rle_dec (y + d) be); [lra|].
    rewrite !clamp_hi by lra. replace (0 * d - (H be - H be)) with 0 by ring. rewrite Rabs_R0. lra.
  - destruct (Rlt_dec y al) as [_|]; [|lra]. destruct (Rle_dec y be) as [_|]; [|lra].
    rewrite (clamp_lo y) by lra.
    destruct (Rlt_dec (y + d) al) as [C|C].
    + rewrite clamp_lo by lra. destruct (Rle_dec (y + d) be); [|lra]. replace (0 * d - (H al - H al)) with 0 by ring. rewrite Rabs_R0. lra.
    + assert (X : al <= clamp (y + d) <= be) by (unfold clamp; split; [apply Rmax_l|apply Rmax_lub; [lra|apply Rmin_r]]).
      assert (Y : clamp (y + d) <= y + d) by (unfold clamp; apply Rmax_lub; [lra|apply Rmin_l]).
      pose proof (grow al (clamp (y + d)) (Rle_refl _) (proj1 X) (proj2 X)) as E.
      assert (G * (clamp (y + d) - al) <= G * d) by (apply Rmult_le_compat_l; lra).
      assert (0 <= L * d * (clamp (y + d) - al)) by (apply Rmult_le_pos; lra).
      replace (0 * d - (H (clamp (y + d)) - H al)) with (- (H (clamp (y + d)) - H al)) by ring. rewrite Rabs_Ropp.
      destruct (Rle_dec (y + d) be); lra.
Qed.
Lemma riemann : Rabs (tot (fun k => win (y0 + INR k * d) * d) K - (H be - H al)) <= (L * (be - al) + 4 * G) * d.
Proof using AB L0 Lip Bd Der D0 Start End.
  assert (G0 : 0 <= G) by (eapply Rle_trans; [apply Rabs_pos|apply (Bd al); lra]).
  set (y := fun k => y0 + INR k * d).
  assert (YS : forall k, y (S k) = y k + d) by (intros k; unfold y; rewrite S_INR; ring).
  assert (T : H be - H al = tot (fun k => H (clamp (y (S k))) - H (clamp (y k))) K).
  { rewrite (tot_tele (fun k => H (clamp (y k)))). unfold y at 1 2. rewrite clamp_hi by lra. change (INR 0) with 0. rewrite Rmult_0_l, Rplus_0_r, clamp_lo by lra. reflexivity. }
  rewrite T. replace (tot (fun k => win (y0 + INR k * d) * d) K - tot (fun k => H (clamp (y (S k))) - H (clamp (y k))) K)
    with (tot (fun k => win (y k) * d - (H (clamp (y k + d)) - H (clamp (y k)))) K).
  2:{ rewrite <- tot_sub. apply tot_ext. intros k _. rewrite YS. unfold y. ring. }
  eapply Rle_trans; [apply tot_abs|]. eapply Rle_trans; [apply tot_le; intros k _; apply cell|].
  rewrite (tot_ext _ (fun k => L * d * (clamp (y (S k)) - clamp (y k)) + (2 * G * d * -1) * ((below (y (S k)) + upto (y (S k))) - (below (y k) + upto (y k)))))
    by (intros k _; rewrite YS; ring).
  rewrite tot_add, !tot_scal, (tot_tele (fun k => clamp (y k))), (tot_tele (fun k => below (y k) + upto (y k))).
  assert (clamp (y K) - clamp (y 0%nat) <= be - al).
  { unfold clamp. pose proof (Rmax_l al (Rmin (y 0%nat) be)). assert (Rmax al (Rmin (y K) be) <= be) by (apply Rmax_lub; [lra|apply Rmin_r]). lra. }
  assert (B : forall z, 0 <= below z + upto z <= 2) by (intros z; unfold below, upto; destruct (Rlt_dec z al), (Rle_dec z be); lra).
  pose proof (B (y K)). pose proof (B (y 0%nat)). assert (0 <= L * d) by (apply Rmult_le_pos; lra). assert (0 <= G * d) by (apply Rmult_le_pos; lra).
  assert (L * d * (clamp (y K) - clamp (y 0%nat)) <= L * d * (be - al)) by (apply Rmult_le_compat_l; lra).
  set (q := below (y K) + upto (y K) - (below (y 0%nat) + upto (y 0%nat))) in *. assert (G * d * (- q) <= G * d * 2) by (apply Rmult_le_compat_l; [lra|unfold q; lra]). lra.
Qed.
End Riemann.
