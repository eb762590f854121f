(** The spherical correlation is strictly positive definite for distinct points
    of the plane: in some range of directions one point is ahead of all others,
    and there its cut identity is seen alone. *)
From Coq Require Import List ZArith Bool Reals Lra Lia.
From Verif Require Import Base Num RealSpec RealStat SpecGram_proofs5 LinAlg PosDef PosDef2 PosDef3 PosDef4.
Import ListNotations.
Local Open Scope R_scope.

Lemma cv_le u v l k : (forall n, u n <= v n) -> Un_cv u l -> Un_cv v k -> l <= k.
Proof.
  intros H U V. pose proof (cv_nonneg (fun n => v n - u n) (k - l) (fun n => ltac:(specialize (H n); lra)) (CV_minus _ _ _ _ V U)). lra.
Qed.
Definition form {A} (k : A -> A -> R) (n : nat) (c : nat -> R) (p : nat -> A) : R := tot (fun i => tot (fun j => c i * c j * k (p i) (p j)) n) n.
Lemma form_sum {A} (k : nat -> A -> A -> R) m n c p : form (fun a b => tot (fun l => k l a b) m) n c p = tot (fun l => form (k l) n c p) m.
Proof.
  unfold form. rewrite (tot_ext _ (fun i => tot (fun l => tot (fun j => c i * c j * k l (p i) (p j)) n) m)); [apply tot_swap|].
  intros i _. rewrite <- tot_swap. apply tot_ext. intros j _. rewrite <- tot_scal. reflexivity.
Qed.
Lemma form_scal {A} a (k : A -> A -> R) n c p : form (fun x y => a * k x y) n c p = a * form k n c p.
Proof. unfold form. rewrite <- tot_scal. apply tot_ext. intros i _. rewrite <- tot_scal. apply tot_ext. intros j _. ring. Qed.
Lemma form_ext {A} (k k' : A -> A -> R) n c p : (forall a b, k a b = k' a b) -> form k n c p = form k' n c p.
Proof. intros E. unfold form. apply tot_ext. intros i _. apply tot_ext. intros j _. rewrite E. reflexivity. Qed.
Lemma form_prod {A} (f : A -> R) n c p : form (fun a b => f a * f b) n c p = tot (fun i => c i * f (p i)) n * tot (fun i => c i * f (p i)) n.
Proof. unfold form. rewrite tot_prod. apply tot_ext; intros i _. apply tot_ext; intros j _. ring. Qed.
Lemma form_cv {A} (K : nat -> A -> A -> R) k n c p : (forall a b, Un_cv (fun m => K m a b) (k a b)) -> Un_cv (fun m => form (K m) n c p) (form k n c p).
Proof. intros H. unfold form. apply cv_tot. intros i _. apply cv_tot. intros j _. apply CV_mult; [apply cv_const|apply H]. Qed.

(** ** on the line: one point ahead of the others by [d] *)
Definition ahead (d : R) : R := 4 * ((1 / 2) ^ 3 - (1 / 2 - d / 2) ^ 3).
Lemma ahead_pos d : 0 < d <= 1 -> 0 < ahead d.
Proof.
  intros H. unfold ahead. assert ((1 / 2 - d / 2) ^ 3 < (1 / 2) ^ 3); [|lra]. set (t := 1 / 2 - d / 2). assert (0 <= t < 1 / 2) by (unfold t; lra).
  replace (t ^ 3) with (t * (t * t)) by ring. replace ((1 / 2) ^ 3) with (1 / 8) by field. assert (t * t <= 1 / 4) by nra. nra.
Qed.
Lemma line_ahead n (c s : nat -> R) i d : (i < n)%nat -> 0 < d <= 1 -> (forall k, (k < n)%nat -> k <> i -> c k = 0 \/ s k + d <= s i) ->
  ahead d * (c i * c i) <= form (fun a b => c1 (Rabs (a - b))) n c s.
Proof.
  intros Hi Hd H. set (si := s i). set (al := si + 1 / 2 - d / 2). set (be := si + 1 / 2). set (g := fun y => (y - si) * (y - si)). set (P := fun y => (y - si) ^ 3 / 3).
  apply (cv_le (fun m => 12 * (c i * c i) * tot (fun k => win g al be (- INR (S m) + INR k * step m) * step m) (2 * (S m * S m))) (fun m => form (line_kernel m) n c s)).
  - intros m. pose proof (step_pos m) as D0.
    rewrite (form_ext (line_kernel m) (fun a b => 12 * tot (fun k => step m * (cut (node m k - a) * cut (node m k - b))) (2 * (S m * S m)))).
    2:{ intros a b. unfold line_kernel. f_equal. apply tot_ext. intros; ring. }
    rewrite form_scal, (form_sum (fun k a b => step m * (cut (node m k - a) * cut (node m k - b)))).
    rewrite Rmult_assoc. apply Rmult_le_compat_l; [lra|]. rewrite <- tot_scal. apply tot_le. intros k _.
    rewrite form_scal, (form_prod (fun a => cut (node m k - a))). fold (node m k). set (y := node m k).
    assert (SQ : 0 <= tot (fun a => c a * cut (y - s a)) n * tot (fun a => c a * cut (y - s a)) n) by apply Rle_0_sqr.
    unfold win. destruct (Rle_dec al y) as [Y1|]; [destruct (Rle_dec y be) as [Y2|]|].
    + assert (E : tot (fun a => c a * cut (y - s a)) n = c i * (y - si)).
      { rewrite (tot_single _ i); auto.
        - fold si. unfold cut, al, be in *. destruct (Rle_dec (- (1 / 2)) (y - si)); [|lra]. destruct (Rle_dec (y - si) (1 / 2)); [reflexivity|lra].
        - intros a Ha Na. destruct (H a Ha Na) as [->|L]; [ring|]. fold si in L. unfold cut, al in *. destruct (Rle_dec (- (1 / 2)) (y - s a)); [|ring]. destruct (Rle_dec (y - s a) (1 / 2)); [lra|ring]. }
      rewrite E. unfold g. apply Req_le. ring.
    + rewrite Rmult_0_l, Rmult_0_r. apply Rmult_le_pos; lra.
    + rewrite Rmult_0_l, Rmult_0_r. apply Rmult_le_pos; lra.
  - replace (ahead d * (c i * c i)) with (12 * (c i * c i) * (P be - P al)) by (unfold ahead, P, be, al; field).
    apply CV_mult; [apply cv_const|]. set (m0 := Z.to_nat (up (Rabs si + 1))). apply (cv_bound _ _ 2 m0). intros m Hm.
    assert (M : Rabs si + 1 <= INR (S m)).
    { apply Rle_trans with (INR m0); [|apply le_INR; lia]. unfold m0. destruct (archimed (Rabs si + 1)) as [U _]. pose proof (Rabs_pos si).
      rewrite INR_IZR_INZ, Z2Nat.id; [lra|]. apply le_IZR. change (IZR 0) with 0. lra. }
    pose proof (Rle_abs si) as S1. pose proof (Rle_abs (- si)) as S2. rewrite Rabs_Ropp in S2. pose proof (step_pos m) as D0.
    eapply Rle_trans; [apply (riemann g P al be 1 (1 / 4) (step m) (- INR (S m)) (2 * (S m * S m)))|].
    + unfold al, be; lra.
    + lra.
    + intros a b Ha Hb. unfold g. replace ((a - si) * (a - si) - (b - si) * (b - si)) with ((a - b) * ((a - si) + (b - si))) by ring.
      rewrite Rabs_mult, Rmult_comm. apply Rmult_le_compat_r; [apply Rabs_pos|]. unfold al, be in *. apply Rabs_le. lra.
    + intros a Ha. unfold g, al, be in *. assert (0 <= a - si <= 1 / 2) by lra. apply Rabs_le. split; nra.
    + intros a _. unfold P, g. 
      replace ((a - si) * (a - si)) with (/ 3 * (INR 3 * (a - si) ^ Init.Nat.pred 3 * (1 - 0))) by (simpl; field).
      eapply derivable_pt_lim_ext; [|apply (derivable_pt_lim_scal (fun y => (y - si) ^ 3) (/ 3))]; [intros; unfold mult_real_fct; field|].
      apply (derivable_pt_lim_comp (fun y => y - si) (fun y => y ^ 3)); [|apply derivable_pt_lim_pow].
      apply (derivable_pt_lim_minus (fun y => y) (fun _ => si)); [apply derivable_pt_lim_id|apply derivable_pt_lim_const].
    + exact D0.
    + unfold al. lra.
    + rewrite mult_INR, mult_INR. change (INR 2) with 2. replace (2 * (INR (S m) * INR (S m)) * step m) with (2 * INR (S m) * (INR (S m) * step m)) by ring. rewrite step_mul. unfold be. lra.
    + apply Rmult_le_compat_r; [lra|]. unfold al, be. lra.
  - apply form_cv. exact line_limit.
Qed.

(** ** the share of a range of directions *)
Lemma share al be : 0 <= al -> al <= be -> be <= 1 -> Un_cv (fun m => tot (fun k => win (fun _ => 1) al be (0 + INR k * step m) * step m) (S m)) (be - al).
Proof.
  intros A B C. apply (cv_bound _ _ 5 0). intros m _. pose proof (step_pos m) as D0.
  eapply Rle_trans; [apply (riemann (fun _ => 1) (fun y => y) al be 0 1 (step m) 0 (S m))|]; try lra.
  - intros a b _ _. rewrite Rminus_diag_eq, Rabs_R0 by reflexivity. rewrite Rmult_0_l. apply Rle_refl.
  - intros a _. rewrite Rabs_R1. apply Rle_refl.
  - intros a _. apply derivable_pt_lim_id.
  - rewrite step_mul. lra.
Qed.

(** ** a point ahead of all others in a range of directions *)
Definition before (p q : R * R) : Prop := fst p < fst q \/ fst p = fst q /\ snd p < snd q.
Lemma before_total p q : p <> q -> before p q \/ before q p.
Proof.
  destruct p as [a b], q as [u v]. unfold before. cbn [fst snd]. intros N. destruct (Rtotal_order a u) as [|[->|]]; auto.
  destruct (Rtotal_order b v) as [|[->|]]; auto. now destruct N.
Qed.
Lemma before_trans p q r : before p q -> before q r -> before p r.
Proof. unfold before. intros [A|[A A']] [B|[B B']]; (left; lra) || (right; split; lra). Qed.
Lemma last_one n (c : nat -> R) (p : nat -> R * R) : (forall i k, (i < n)%nat -> (k < n)%nat -> i <> k -> p i <> p k) ->
  (forall i, (i < n)%nat -> c i = 0) \/ exists i, (i < n)%nat /\ c i <> 0 /\ forall k, (k < n)%nat -> k <> i -> c k = 0 \/ before (p k) (p i).
Proof.
  induction n as [|n IH]; intros D; [left; intros; lia|].
  destruct IH as [Z|(i & Hi & Ci & H)]; [intros; apply D; lia| |].
  - destruct (Req_EM_T (c n) 0) as [E|E].
    + left. intros i Hi. destruct (Nat.eq_dec i n) as [->|]; [exact E|apply Z; lia].
    + right. exists n. split; [lia|]. split; [exact E|]. intros k Hk Nk. left. apply Z. lia.
  - right. destruct (Req_EM_T (c n) 0) as [E|E].
    + exists i. split; [lia|]. split; [exact Ci|]. intros k Hk Nk. destruct (Nat.eq_dec k n) as [->|]; [left; exact E|apply H; lia].
    + destruct (before_total (p n) (p i)) as [B|B]; [apply D; lia| |].
      * exists i. split; [lia|]. split; [exact Ci|]. intros k Hk Nk. destruct (Nat.eq_dec k n) as [->|]; [right; exact B|apply H; lia].
      * exists n. split; [lia|]. split; [exact E|]. intros k Hk Nk. destruct (Nat.eq_dec k i) as [->|]; [right; exact B|]. destruct (H k ltac:(lia) ltac:(lia)) as [Z|B']; [left; exact Z|right; eapply before_trans; eauto].
Qed.

Lemma cos_low t : 0 <= t <= 1 -> 1 / 2 <= cos t.
Proof.
  intros H. pose proof PI_RGT_0. assert (P3 : 3 < PI) by (pose proof PI2_3_2; unfold PI2 in *; lra). rewrite <- cos_PI3. destruct (Rlt_le_dec t (PI / 3)); [left; apply cos_decreasing_1; lra|lra].
Qed.
Lemma sin_up t : 0 <= t -> t <= 1 -> 0 <= sin t <= t.
Proof.
  intros H H1. assert (P3 : 3 < PI) by (pose proof PI2_3_2; unfold PI2 in *; lra). split; [apply sin_ge_0; lra|]. destruct (Req_dec t 0) as [->|]; [rewrite sin_0; lra|]. left. apply sin_lt_x. lra.
Qed.
Definition lead (p q : R * R) (t : R) : R := (fst p - fst q) * cos t + (snd p - snd q) * sin t.
Lemma lead_first n (p : nat -> R * R) q : exists T d, 0 < T <= 1 /\ 0 < d /\ forall k t, (k < n)%nat -> fst (p k) < fst q -> 0 <= t <= T -> d <= lead q (p k) t.
Proof.
  induction n as [|n (T & d & HT & Hd & H)]; [exists 1, 1; repeat split; try lra; intros; lia|].
  destruct (Rlt_le_dec (fst (p n)) (fst q)) as [L|L].
  - set (dx := fst q - fst (p n)). set (dy := Rabs (snd q - snd (p n))). assert (DX : 0 < dx) by (unfold dx; lra). assert (DY : 0 <= dy) by apply Rabs_pos.
    set (T' := dx / (4 * (dy + 1))). assert (HT' : 0 < T') by (apply Rdiv_lt_0_compat; lra).
    exists (Rmin T T'), (Rmin d (dx / 4)). split; [split; [apply Rmin_glb_lt; lra|pose proof (Rmin_l T T'); lra]|]. split; [apply Rmin_glb_lt; lra|].
    intros k t Hk LK Ht. pose proof (Rmin_l T T'). pose proof (Rmin_r T T'). destruct (Nat.eq_dec k n) as [->|].
    + apply Rle_trans with (dx / 4); [apply Rmin_r|]. unfold lead. fold dx. pose proof (cos_low t ltac:(lra)) as C. destruct (sin_up t ltac:(lra) ltac:(lra)) as [S0 S1].
      assert (A : - (dy * t) <= (snd q - snd (p n)) * sin t).
      { assert (- dy <= snd q - snd (p n)) by (unfold dy, Rabs; destruct (Rcase_abs _); lra). assert (dy * sin t <= dy * t) by (apply Rmult_le_compat_l; lra). nra. }
      assert (B : dy * t <= dx / 4).
      { apply Rle_trans with ((dy + 1) * T'); [apply Rmult_le_compat; lra|]. unfold T'. apply Req_le. field. lra. }
      assert (dx * (1 / 2) <= dx * cos t) by (apply Rmult_le_compat_l; lra). lra.
    + apply Rle_trans with d; [apply Rmin_l|]. apply H; try lra. lia.
  - exists T, d. split; [exact HT|]. split; [exact Hd|]. intros k t Hk LK Ht. destruct (Nat.eq_dec k n) as [->|]; [lra|]. apply H; auto. lia.
Qed.
Lemma lead_all n (p : nat -> R * R) q : exists a b d, 0 < a /\ a < b /\ b <= 1 /\ 0 < d /\ forall k t, (k < n)%nat -> before (p k) q -> a <= t <= b -> d <= lead q (p k) t.
Proof.
  destruct (lead_first n p q) as (T & d0 & HT & Hd & H). exists (T / 2), T.
  assert (G : forall m, (m <= n)%nat -> exists d, 0 < d /\ forall k t, (k < m)%nat -> before (p k) q -> T / 2 <= t <= T -> d <= lead q (p k) t).
  { induction m as [|m IH]; intros Hm; [exists 1; split; [lra|intros; lia]|]. destruct IH as (d & D0 & D); [lia|].
    destruct (sin_up (T / 2) ltac:(lra) ltac:(lra)) as [S0 _]. assert (P3 : 3 < PI) by (pose proof PI2_3_2; unfold PI2 in *; lra).
    assert (SP : 0 < sin (T / 2)) by (apply sin_gt_0; lra).
    set (dy := snd q - snd (p m)).
    exists (Rmin (Rmin d d0) (if Rlt_dec 0 dy then dy * sin (T / 2) else 1)). split.
    - repeat apply Rmin_glb_lt; auto. destruct (Rlt_dec 0 dy); [apply Rmult_lt_0_compat; auto|lra].
    - intros k t Hk B Ht. destruct (Nat.eq_dec k m) as [->|].
      + destruct B as [B|[B B']].
        * eapply Rle_trans; [apply Rmin_l|]. eapply Rle_trans; [apply Rmin_r|]. apply H; [lia|exact B|lra].
        * eapply Rle_trans; [apply Rmin_r|]. unfold lead. fold dy. rewrite B, Rminus_diag_eq, Rmult_0_l, Rplus_0_l by reflexivity.
          destruct (Rlt_dec 0 dy) as [Y|Y]; [|unfold dy in Y; lra]. apply Rmult_le_compat_l; [lra|]. apply sin_incr_1; lra.
      + eapply Rle_trans; [apply Rmin_l|]. eapply Rle_trans; [apply Rmin_l|]. apply D; auto. lia. }
  destruct (G n (le_n n)) as (d & D0 & D). exists d. repeat split; try lra. exact D.
Qed.

(** ** the plane *)
Definition cplane (p q : R * R) : R := c3 (sqrt ((fst p - fst q) * (fst p - fst q) + (snd p - snd q) * (snd p - snd q))).
Theorem spherical_pd n (c : nat -> R) (p : nat -> R * R) : (forall i k, (i < n)%nat -> (k < n)%nat -> i <> k -> p i <> p k) ->
  form cplane n c p <= 0 -> forall i, (i < n)%nat -> c i = 0.
Proof.
  intros D Z. destruct (last_one n c p D) as [H|(i & Hi & Ci & H)]; [exact H|]. exfalso.
  destruct (lead_all n p (p i)) as (a & b & d & A & AB & B & D0 & LD). pose proof PI_RGT_0 as PP. assert (P3 : 3 < PI) by (pose proof PI2_3_2; unfold PI2 in *; lra).
  set (e := Rmin (d / 2) 1). assert (E1 : 0 < e <= 1) by (unfold e; split; [apply Rmin_glb_lt; lra|apply Rmin_r]). assert (E2 : e <= d / 2) by apply Rmin_l.
  set (al := a / (2 * PI)). set (be := b / (2 * PI)).
  assert (AL : 0 <= al) by (apply Rmult_le_pos; [lra|left; apply Rinv_0_lt_compat; lra]).
  assert (ABE : al < be) by (unfold al, be; apply Rmult_lt_compat_r; [apply Rinv_0_lt_compat; lra|lra]).
  assert (BE : be <= 1). { unfold be. apply (Rmult_le_reg_r (2 * PI)); [lra|]. replace (b / (2 * PI) * (2 * PI)) with b by (field; lra). lra. }
  set (low := ahead e * (c i * c i)). assert (LP : 0 < low) by (apply Rmult_lt_0_compat; [apply ahead_pos, E1|apply Rsqr_pos_lt, Ci]).
  set (J := fun m => tot (fun k => win (fun _ => 1) 0 (1 / 2) (0 + INR k * step m) * step m) (S m)).
  set (N := fun m => tot (fun k => win (fun _ => 1) al be (0 + INR k * step m) * step m) (S m)).
  assert (C : (1 / 2 - 0) * (be - al) * low <= form cplane n c p).
  { apply (cv_le (fun m => J m * N m * low) (fun m => form (plane_kernel m) n c p)).
    - intros m. pose proof (step_pos m) as S0. unfold plane_kernel.
      rewrite (form_sum (fun j p q => tot (fun n0 => step m * step m * c1 (Rabs (along m j n0 p - along m j n0 q))) (S m))).
      unfold J, N. rewrite tot_prod, <- tot_scal_r. apply tot_le. intros j Hj. rewrite <- tot_scal_r.
      rewrite (form_sum (fun n0 p q => step m * step m * c1 (Rabs (along m j n0 p - along m j n0 q)))). apply tot_le. intros u Hu. rewrite form_scal.
      assert (F0 : 0 <= form (fun p q => c1 (Rabs (along m j u p - along m j u q))) n c p) by exact (psd_comp (along m j u) _ c1_psd n c p).
      set (F := form (fun p q => c1 (Rabs (along m j u p - along m j u q))) n c p) in *. rewrite !Rplus_0_l.
      assert (SS : 0 < step m * step m) by (apply Rmult_lt_0_compat; lra).
      assert (Z0 : 0 <= step m * step m * F) by (apply Rmult_le_pos; lra).
      unfold win. destruct (Rle_dec 0 (INR j * step m)) as [J0|]; [destruct (Rle_dec (INR j * step m) (1 / 2)) as [J1|]|]; try (rewrite ?Rmult_0_l; exact Z0).
      destruct (Rle_dec al (INR u * step m)) as [U0|]; [destruct (Rle_dec (INR u * step m) be) as [U1|]|]; try (rewrite Rmult_0_l, Rmult_0_r, Rmult_0_l; exact Z0).
      replace (1 * step m * (1 * step m) * low) with (step m * step m * low) by ring. apply Rmult_le_compat_l; [lra|].
      unfold F. change (low <= form (fun x y => c1 (Rabs (x - y))) n c (fun k => along m j u (p k))). unfold low.
      apply (line_ahead n c (fun k => along m j u (p k)) i e Hi E1).
      intros k Hk Nk. destruct (H k Hk Nk) as [C0|Bk]; [left; exact C0|]. right.
      set (t := 2 * PI * (INR u * step m)).
      assert (T1 : a <= t <= b).
      { unfold t. split.
        - replace a with (2 * PI * al) by (unfold al; field; lra). apply Rmult_le_compat_l; lra.
        - replace b with (2 * PI * be) by (unfold be; field; lra). apply Rmult_le_compat_l; lra. }
      specialize (LD k t Hk Bk T1). unfold lead in LD. unfold along. fold t.
      assert (RH : 1 / 2 <= rho m j).
      { unfold rho. replace (1 / 2) with (sqrt ((1 / 2) * (1 / 2))) by (apply sqrt_square; lra). apply sqrt_le_1_alt. set (w := INR j * step m) in *. assert (w ^ 2 <= 1 / 4) by nra. lra. }
      set (L := (fst (p i) - fst (p k)) * cos t + (snd (p i) - snd (p k)) * sin t) in *.
      assert (1 / 2 * d <= rho m j * L) by (apply Rmult_le_compat; lra).
      replace (rho m j * (fst (p i) * cos t + snd (p i) * sin t)) with (rho m j * (fst (p k) * cos t + snd (p k) * sin t) + rho m j * L) by (unfold L; ring). lra.
    - apply CV_mult; [|apply cv_const]. apply CV_mult; [apply share; lra|apply share; lra].
    - apply form_cv. exact plane_limit. }
  assert (0 < (1 / 2 - 0) * (be - al) * low) by (apply Rmult_lt_0_compat; [apply Rmult_lt_0_compat; lra|exact LP]). lra.
Qed.
