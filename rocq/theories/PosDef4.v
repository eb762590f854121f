(** The averages over directions converge to the spherical correlation. *)
From Coq Require Import List ZArith Bool Reals Lra Lia.
From Verif Require Import Base Num RealSpec RealStat SpecGram_proofs5 LinAlg PosDef PosDef2 PosDef3.
Import ListNotations.
Local Open Scope R_scope.

Lemma rabs_between x a : Rabs x <= a -> - a <= x <= a.
Proof. unfold Rabs. destruct (Rcase_abs x); lra. Qed.

(** ** polynomials and their mean over [u^2] *)
Definition poly_of (f : R -> R) (d : nat) (a : nat -> R) : Prop := forall w, f w = tot (fun k => a k * w ^ k) d.
Definition poly (f : R -> R) : Prop := exists d a, poly_of f d a.
Lemma poly_const c : poly (fun _ => c).
Proof. exists 1%nat, (fun _ => c). intros w. cbn. ring. Qed.
Lemma poly_X f : poly f -> poly (fun w => w * f w).
Proof.
  intros (d & a & E). exists (S d), (fun k => match k with O => 0 | S k' => a k' end). intros w. rewrite tot_shift, E, <- tot_scal, Rmult_0_l, Rplus_0_l.
  apply tot_ext. intros i _. simpl. ring.
Qed.
Lemma tot_pad (a : nat -> R) w d e : tot (fun k => (if Nat.ltb k d then a k else 0) * w ^ k) (d + e) = tot (fun k => a k * w ^ k) d.
Proof.
  rewrite tot_split. rewrite (tot_ext _ (fun k => a k * w ^ k)).
  - rewrite (tot_ext _ (fun _ => 0) e); [rewrite tot_zero; ring|]. intros i _. destruct (Nat.ltb_spec (d + i) d); [lia|ring].
  - intros i Hi. destruct (Nat.ltb_spec i d); [reflexivity|lia].
Qed.
Lemma poly_add f g : poly f -> poly g -> poly (fun w => f w + g w).
Proof.
  intros (d & a & E) (e & b & F). exists (d + e)%nat, (fun k => (if Nat.ltb k d then a k else 0) + (if Nat.ltb k e then b k else 0)). intros w.
  rewrite E, F, <- (tot_pad a w d e), <- (tot_pad b w e d), (Nat.add_comm e d), <- tot_add. apply tot_ext. intros; ring.
Qed.
Lemma poly_scal c f : poly f -> poly (fun w => c * f w).
Proof. intros (d & a & E). exists d, (fun k => c * a k). intros w. rewrite E, <- tot_scal. apply tot_ext. intros; ring. Qed.
Lemma poly_ext f g : (forall w, f w = g w) -> poly f -> poly g.
Proof. intros H (d & a & E). exists d, a. intros w. rewrite <- H. apply E. Qed.

(** ** mean over [n] tosses with probability [w] *)
Fixpoint toss (n : nat) (F : nat -> R) (w : R) : R :=
  match n with O => F 0%nat | S n' => w * toss n' (fun k => F (S k)) w + (1 - w) * toss n' F w end.
Lemma toss_poly n : forall F, poly (toss n F).
Proof.
  induction n; intros F; [apply poly_const|]. simpl.
  apply (poly_ext (fun w => w * toss n (fun k => F (S k)) w + (toss n F w + -1 * (w * toss n F w)))); [intros; ring|].
  apply poly_add; [apply poly_X, IHn|]. apply poly_add; [apply IHn|]. apply poly_scal, poly_X, IHn.
Qed.
Lemma toss_le n w : 0 <= w <= 1 -> forall F G, (forall k, F k <= G k) -> toss n F w <= toss n G w.
Proof.
  intros W. induction n; intros F G H; [apply H|]. simpl. apply Rplus_le_compat; apply Rmult_le_compat_l; try lra; apply IHn; intros; apply H.
Qed.
Lemma toss_lin n w : forall F a b, toss n (fun k => a * F k + b) w = a * toss n F w + b.
Proof. induction n; intros F a b; simpl; [reflexivity|]. rewrite (IHn (fun k => F (S k))), IHn. ring. Qed.
Lemma toss_sq n w : forall a, toss n (fun k => (INR k + a) ^ 2) w = (INR n * w + a) ^ 2 + INR n * (w * (1 - w)).
Proof.
  induction n; intros a; [simpl; ring|]. cbn [toss]. rewrite S_INR.
  replace (toss n (fun k => (INR (S k) + a) ^ 2) w) with (toss n (fun k => (INR k + (1 + a)) ^ 2) w).
  - rewrite !IHn. ring.
  - clear. assert (forall F G, (forall k, F k = G k) -> toss n F w = toss n G w) as X.
    { induction n; intros F G H; [apply H|]. simpl. rewrite (IHn (fun k => F (S k)) (fun k => G (S k))), (IHn F G); auto. }
    apply X. intros k. rewrite S_INR. ring.
Qed.
Lemma toss_abs n w F : 0 <= w <= 1 -> forall B, (forall k, Rabs (F k) <= B k) -> Rabs (toss n F w) <= toss n B w.
Proof.
  intros W B H. apply Rabs_le. split.
  - replace (- toss n B w) with (toss n (fun k => -1 * B k + 0) w) by (rewrite toss_lin; ring). apply toss_le; auto.
    intros k. specialize (H k). apply rabs_between in H. lra.
  - apply toss_le; auto. intros k. specialize (H k). apply rabs_between in H. lra.
Qed.

Lemma c1_lip a b : 0 <= a -> 0 <= b -> Rabs (c1 a - c1 b) <= 3 * Rabs (a - b).
Proof.
  assert (I : forall a b, 0 <= a <= 1 -> 0 <= b <= 1 -> Rabs (1 - 3 * a + 2 * a ^ 3 - (1 - 3 * b + 2 * b ^ 3)) <= 3 * Rabs (a - b)).
  { intros x y Hx Hy. replace (1 - 3 * x + 2 * x ^ 3 - (1 - 3 * y + 2 * y ^ 3)) with ((-3 + 2 * (x * x + x * y + y * y)) * (x - y)) by ring.
    rewrite Rabs_mult. apply Rmult_le_compat_r; [apply Rabs_pos|]. apply Rabs_le.
    assert (0 <= x * x <= 1) by nra. assert (0 <= y * y <= 1) by nra. assert (0 <= x * y <= 1) by nra. lra. }
  intros Ha Hb. unfold c1. destruct (Rle_dec a 1) as [A|A], (Rle_dec b 1) as [B|B].
  - apply I; lra.
  - specialize (I a 1 ltac:(lra) ltac:(lra)). replace (1 - 3 * 1 + 2 * 1 ^ 3) with 0 in I by ring.
    eapply Rle_trans; [exact I|]. rewrite !Rabs_left1; lra.
  - specialize (I 1 b ltac:(lra) ltac:(lra)). replace (1 - 3 * 1 + 2 * 1 ^ 3) with 0 in I by ring.
    eapply Rle_trans; [exact I|]. rewrite !Rabs_pos_eq; lra.
  - rewrite Rminus_diag_eq, Rabs_R0 by reflexivity. pose proof (Rabs_pos (a - b)). lra.
Qed.
Lemma sqrt_holder a b : 0 <= a -> 0 <= b -> Rabs (sqrt a - sqrt b) ^ 2 <= Rabs (a - b).
Proof.
  assert (I : forall a b, 0 <= b <= a -> Rabs (sqrt a - sqrt b) ^ 2 <= Rabs (a - b)).
  { intros x y H. pose proof (sqrt_pos x). pose proof (sqrt_pos y). assert (sqrt y <= sqrt x) by (apply sqrt_le_1; lra).
    rewrite !Rabs_pos_eq by lra. rewrite <- (sqrt_sqrt x) at 2 by lra. rewrite <- (sqrt_sqrt y) at 2 by lra. nra. }
  intros Ha Hb. destruct (Rle_dec b a); [apply I; lra|]. rewrite (Rabs_minus_sym (sqrt a)), (Rabs_minus_sym a). apply I. lra.
Qed.
Lemma sqrt_quad a b h : 0 <= a -> 0 <= b -> 0 < h -> Rabs (sqrt a - sqrt b) <= h + (a - b) ^ 2 / h ^ 3.
Proof.
  intros Ha Hb Hh. pose proof (sqrt_holder a b Ha Hb) as S. pose proof (Rabs_pos (sqrt a - sqrt b)) as P. set (s := Rabs (sqrt a - sqrt b)) in *.
  assert (H3 : 0 < h ^ 3) by (apply pow_lt; auto). assert (Q : 0 <= (a - b) ^ 2) by (rewrite <- Rsqr_pow2; apply Rle_0_sqr).
  destruct (Rle_dec s h) as [C|C].
  - assert (0 <= (a - b) ^ 2 / h ^ 3) by (apply Rmult_le_pos; [auto|left; apply Rinv_0_lt_compat; auto]). lra.
  - assert (s ^ 4 <= (a - b) ^ 2).
    { rewrite <- (pow2_abs (a - b)). replace (s ^ 4) with ((s ^ 2) ^ 2) by ring. apply pow_incr. split; [apply pow_le; auto|auto]. }
    assert (s <= (a - b) ^ 2 / h ^ 3); [|lra]. apply (Rmult_le_reg_r (h ^ 3)); auto.
    replace ((a - b) ^ 2 / h ^ 3 * h ^ 3) with ((a - b) ^ 2) by (field; lra).
    eapply Rle_trans; [|eassumption]. replace (s ^ 4) with (s * s ^ 3) by ring. apply Rmult_le_compat_l; auto. apply pow_incr. lra.
Qed.

Lemma approx r e : 0 <= r -> 0 < e -> exists f, poly f /\ forall w, 0 <= w <= 1 -> Rabs (f w - c1 (r * sqrt w)) <= e.
Proof.
  intros Hr He. set (h := e / (6 * r + 1)). assert (Hh : 0 < h) by (apply Rdiv_lt_0_compat; lra).
  destruct (archimed_cor1 (h ^ 4)) as (n & N1 & N2); [apply pow_lt; auto|].
  assert (NP : 0 < INR n) by (apply lt_0_INR; lia).
  exists (toss n (fun k => c1 (r * sqrt (INR k / INR n)))). split; [apply toss_poly|]. intros w W.
  set (c := c1 (r * sqrt w)).
  replace (toss n (fun k => c1 (r * sqrt (INR k / INR n))) w - c) with (toss n (fun k => 1 * c1 (r * sqrt (INR k / INR n)) + - c) w) by (rewrite toss_lin; ring).
  eapply Rle_trans; [apply (toss_abs n w _ W (fun k => 3 * r / h ^ 3 / INR n ^ 2 * (INR k + - (INR n * w)) ^ 2 + 3 * r * h))|].
  - intros k. unfold c. rewrite Rmult_1_l. pose proof (pos_INR k) as K0.
    assert (D0 : 0 <= INR k / INR n) by (apply Rmult_le_pos; [auto|left; apply Rinv_0_lt_compat; auto]).
    eapply Rle_trans; [apply c1_lip; apply Rmult_le_pos; auto; apply sqrt_pos|].
    rewrite <- Rmult_minus_distr_l, Rabs_mult, (Rabs_pos_eq r) by auto.
    pose proof (sqrt_quad (INR k / INR n) w h D0 (proj1 W) Hh) as Q.
    replace (3 * r / h ^ 3 / INR n ^ 2 * (INR k + - (INR n * w)) ^ 2 + 3 * r * h) with (3 * (r * (h + (INR k / INR n - w) ^ 2 / h ^ 3))).
    + apply Rmult_le_compat_l; [lra|]. apply Rmult_le_compat_l; auto.
    + field. split; lra.
  - rewrite toss_lin, toss_sq. replace (INR n * w + - (INR n * w)) with 0 by ring.
    assert (V : w * (1 - w) <= 1) by nra. assert (V0 : 0 <= w * (1 - w)) by nra.
    assert (T : 3 * r / h ^ 3 / INR n ^ 2 * (0 ^ 2 + INR n * (w * (1 - w))) <= 3 * r * h).
    { replace (3 * r / h ^ 3 / INR n ^ 2 * (0 ^ 2 + INR n * (w * (1 - w)))) with (3 * r * (/ INR n * (w * (1 - w)) / h ^ 3)) by (field; split; lra).
      apply Rmult_le_compat_l; [lra|]. apply (Rmult_le_reg_r (h ^ 3)); [apply pow_lt; auto|].
      replace (/ INR n * (w * (1 - w)) / h ^ 3 * h ^ 3) with (/ INR n * (w * (1 - w))) by (field; lra).
      apply Rle_trans with (/ INR n * 1); [apply Rmult_le_compat_l; [left; apply Rinv_0_lt_compat; auto|auto]|]. replace (h * h ^ 3) with (h ^ 4) by ring. lra. }
    assert (6 * r * h <= e).
    { unfold h. apply (Rmult_le_reg_r (6 * r + 1)); [lra|]. replace (6 * r * (e / (6 * r + 1)) * (6 * r + 1)) with (6 * r * e) by (field; lra). nra. }
    lra.
Qed.

(** ** the mean of [c1 (r u)] over [u] in [0, 1] is [c3 r] *)
Definition mean_of (d : nat) (a : nat -> R) : R := tot (fun k => a k / (2 * INR k + 1)) d.
Lemma prim_der d a u : derivable_pt_lim (fun u => tot (fun k => a k / (2 * INR k + 1) * u ^ (2 * k + 1)) d) u (tot (fun k => a k * (u ^ 2) ^ k) d).
Proof.
  induction d as [|d IH].
  - eapply derivable_pt_lim_ext; [|apply (derivable_pt_lim_const 0 u)]. intros y. reflexivity.
  - rewrite tot_S. eapply derivable_pt_lim_ext; [|apply (derivable_pt_lim_plus (fun u => tot (fun k => a k / (2 * INR k + 1) * u ^ (2 * k + 1)) d) (fun u => a d / (2 * INR d + 1) * u ^ (2 * d + 1)) u _ _ IH)].
    { intros y. rewrite tot_S. reflexivity. }
    replace (a d * (u ^ 2) ^ d) with (a d / (2 * INR d + 1) * (INR (2 * d + 1) * u ^ Init.Nat.pred (2 * d + 1))).
    + apply (derivable_pt_lim_scal (fun u => u ^ (2 * d + 1))). apply derivable_pt_lim_pow.
    + rewrite plus_INR, mult_INR. change (INR 2) with 2. change (INR 1) with 1. replace (Init.Nat.pred (2 * d + 1)) with (2 * d)%nat by lia. rewrite pow_mult. field. pose proof (pos_INR d). lra.
Qed.
Lemma mean_close f d a r e : 0 <= r -> poly_of f d a -> (forall w, 0 <= w <= 1 -> Rabs (f w - c1 (r * sqrt w)) <= e) -> Rabs (mean_of d a - c3 r) <= e.
Proof.
  intros Hr P H. set (F := fun u => tot (fun k => a k / (2 * INR k + 1) * u ^ (2 * k + 1)) d).
  assert (F1 : F 1 = mean_of d a) by (unfold F, mean_of; apply tot_ext; intros; rewrite pow1; ring).
  assert (F0 : F 0 = 0) by (unfold F; rewrite (tot_ext _ (fun _ => 0)); [apply tot_zero|]; intros; rewrite pow_i by lia; ring).
  assert (FD : forall u, derivable_pt_lim F u (f (u ^ 2))) by (intros u; rewrite P; apply prim_der).
  assert (H' : forall u, 0 <= u <= 1 -> Rabs (f (u ^ 2) - c1 (r * u)) <= e).
  { intros u Hu. specialize (H (u ^ 2)). rewrite sqrt_pow2 in H by lra. apply H. split; nra. }
  set (C := fun u => u - 3 / 2 * r * u ^ 2 + 1 / 2 * r ^ 3 * u ^ 4).
  assert (CD : forall u, derivable_pt_lim C u (1 - 3 * (r * u) + 2 * (r * u) ^ 3)).
  { intros u. unfold C. replace (1 - 3 * (r * u) + 2 * (r * u) ^ 3) with (1 - 3 / 2 * r * (INR 2 * u ^ Init.Nat.pred 2) + 1 / 2 * r ^ 3 * (INR 4 * u ^ Init.Nat.pred 4)) by (simpl; field).
    apply (derivable_pt_lim_plus (fun u => u - 3 / 2 * r * u ^ 2) (fun u => 1 / 2 * r ^ 3 * u ^ 4)).
    - apply (derivable_pt_lim_minus (fun u => u) (fun u => 3 / 2 * r * u ^ 2)); [apply derivable_pt_lim_id|].
      apply (derivable_pt_lim_scal (fun u => u ^ 2)). apply derivable_pt_lim_pow.
    - apply (derivable_pt_lim_scal (fun u => u ^ 4)). apply derivable_pt_lim_pow. }
  assert (part : forall m, 0 <= m <= 1 -> r * m <= 1 -> Rabs (F m - C m) <= e * m).
  { intros m Hm RM. replace (F m - C m) with ((F m - C m) - (F 0 - C 0)) by (rewrite F0; unfold C; ring). replace (e * m) with (e * (m - 0)) by ring.
    apply (grow (fun u => f (u ^ 2) - (1 - 3 * (r * u) + 2 * (r * u) ^ 3)) (fun u => F u - C u) 0 m e); try lra.
    - intros u Hu. assert (r * u <= 1) by (apply Rle_trans with (r * m); [apply Rmult_le_compat_l; lra|auto]).
      specialize (H' u ltac:(lra)). unfold c1 in H'. destruct (Rle_dec (r * u) 1); [exact H'|contradiction].
    - intros u _. apply derivable_pt_lim_minus; [apply FD|apply CD]. }
  unfold c3. destruct (Rle_dec r 1) as [R1|R1].
  - specialize (part 1 ltac:(lra) ltac:(lra)). rewrite F1, Rmult_1_r in part. replace (1 - 3 / 2 * r + 1 / 2 * r ^ 3) with (C 1) by (unfold C; ring). exact part.
  - assert (RI : 0 < / r) by (apply Rinv_0_lt_compat; lra). assert (RL : / r <= 1) by (rewrite <- Rinv_1; apply Rinv_le_contravar; lra).
    specialize (part (/ r) ltac:(lra)). rewrite Rinv_r in part by lra. specialize (part (Rle_refl _)).
    replace (C (/ r)) with 0 in part by (unfold C; field; lra). rewrite Rminus_0_r in *.
    assert (G : Rabs (F 1 - F (/ r)) <= e * (1 - / r)).
    { apply (grow (fun u => f (u ^ 2)) F (/ r) 1 e); try lra.
      - intros u Hu. specialize (H' u ltac:(lra)). assert (Z : c1 (r * u) = 0).
        { assert (1 <= r * u) by (rewrite <- (Rinv_r r) by lra; apply Rmult_le_compat_l; lra).
          unfold c1. destruct (Rle_dec (r * u) 1); [|reflexivity]. replace (r * u) with 1 by lra. ring. }
        rewrite Z, Rminus_0_r in H'. exact H'.
      - intros u _. apply FD. }
    rewrite <- F1. replace (F 1) with ((F 1 - F (/ r)) + F (/ r)) by ring. eapply Rle_trans; [apply Rabs_triang|]. lra.
Qed.

(** ** the plane *)
Definition rho (m j : nat) : R := sqrt (1 - (INR j * step m) ^ 2).
Definition along (m j n : nat) (p : R * R) : R := rho m j * (fst p * cos (2 * PI * (INR n * step m)) + snd p * sin (2 * PI * (INR n * step m))).
Definition plane_kernel (m : nat) (p q : R * R) : R :=
  tot (fun j => tot (fun n => step m * step m * c1 (Rabs (along m j n p - along m j n q))) (S m)) (S m).
Lemma plane_kernel_psd m : psd (plane_kernel m).
Proof.
  unfold plane_kernel. apply psd_sum. intros j _. apply psd_sum. intros n _. apply psd_scal; [pose proof (step_pos m); apply Rmult_le_pos; lra|].
  apply (psd_comp (along m j n) (fun s t => c1 (Rabs (s - t)))). exact c1_psd.
Qed.
Lemma polar a b : exists phi, a = sqrt (a * a + b * b) * cos phi /\ b = sqrt (a * a + b * b) * sin phi.
Proof.
  destruct (Req_dec (a * a + b * b) 0) as [Z|NZ].
  - assert (0 <= a * a) by apply Rle_0_sqr. assert (0 <= b * b) by apply Rle_0_sqr. assert (a * a = 0) by lra. assert (b * b = 0) by lra.
    apply Rmult_integral in H1. apply Rmult_integral in H2. exists 0. rewrite Z, sqrt_0. lra.
  - assert (P : 0 < a * a + b * b) by (assert (0 <= a * a) by apply Rle_0_sqr; assert (0 <= b * b) by apply Rle_0_sqr; lra).
    pose proof (sqrt_lt_R0 _ P) as R0. set (r := sqrt (a * a + b * b)) in *. assert (RR : r * r = a * a + b * b) by (apply sqrt_sqrt; lra).
    assert (B : -1 <= a / r <= 1).
    { assert (- r <= a <= r) by (split; nra). split; apply (Rmult_le_reg_r r); auto; replace (a / r * r) with a by (field; lra); lra. }
    assert (S2 : sqrt (1 - (a / r)²) = Rabs b / r).
    { replace (1 - (a / r)²) with ((b / r)²); [rewrite sqrt_Rsqr_abs; unfold Rdiv; rewrite Rabs_mult, (Rabs_pos_eq (/ r)); [reflexivity|left; apply Rinv_0_lt_compat; auto]|].
      unfold Rsqr. apply (Rmult_eq_reg_r (r * r)); [|nra]. field_simplify; [|lra|lra]. nra. }
    destruct (Rle_lt_dec 0 b).
    + exists (acos (a / r)). rewrite cos_acos, sin_acos, S2, Rabs_pos_eq by auto. split; field; lra.
    + exists (- acos (a / r)). rewrite cos_neg, sin_neg, cos_acos, sin_acos, S2, Rabs_left by auto. split; field; lra.
Qed.
Lemma rho_sq m j : (j < S m)%nat -> 0 <= 1 - (INR j * step m) ^ 2 <= 1.
Proof.
  intros Hj. pose proof (step_pos m). assert (0 <= INR j * step m) by (apply Rmult_le_pos; [apply pos_INR|lra]).
  assert (INR j * step m <= 1) by (rewrite <- (step_mul m); apply Rmult_le_compat_r; [lra|apply le_INR; lia]). split; nra.
Qed.
Definition avg (m : nat) (phi : R) (f : R -> R) : R :=
  tot (fun j => tot (fun n => step m * step m * f ((1 - (INR j * step m) ^ 2) * cos (2 * PI * (INR n * step m) - phi) ^ 2)) (S m)) (S m).
Lemma avg_pow phi k : Un_cv (fun m => avg m phi (fun w => w ^ k)) (/ (2 * INR k + 1)).
Proof.
  rewrite <- alpha_beta, Rmult_comm. apply (cv_ext (fun m => tot (fun j => (1 - (INR j * step m) ^ 2) ^ k * step m) (S m) *
     tot (fun n => (cos (2 * PI * (INR n * step m) - phi) ^ 2) ^ k * step m) (S m))).
  - intros m. unfold avg. rewrite tot_prod. apply tot_ext. intros j _. apply tot_ext. intros n _. rewrite (Rpow_mult_distr (1 - (INR j * step m) ^ 2)). ring.
  - apply CV_mult; [apply height_limit|apply angle_limit].
Qed.
Lemma avg_poly phi f d a : poly_of f d a -> Un_cv (fun m => avg m phi f) (mean_of d a).
Proof.
  intros P. apply (cv_ext (fun m => tot (fun k => a k * avg m phi (fun w => w ^ k)) d)).
  - intros m. unfold avg. symmetry.
    rewrite (tot_ext _ (fun j => tot (fun k => a k * tot (fun n => step m * step m * ((1 - (INR j * step m) ^ 2) * cos (2 * PI * (INR n * step m) - phi) ^ 2) ^ k) (S m)) d)).
    + rewrite tot_swap. apply tot_ext. intros k _. rewrite tot_scal. reflexivity.
    + intros j _. rewrite (tot_ext (fun n => step m * step m * f ((1 - (INR j * step m) ^ 2) * cos (2 * PI * (INR n * step m) - phi) ^ 2))
        (fun n => tot (fun k => a k * (step m * step m * ((1 - (INR j * step m) ^ 2) * cos (2 * PI * (INR n * step m) - phi) ^ 2) ^ k)) d)).
      * rewrite tot_swap. apply tot_ext. intros k _. rewrite tot_scal. reflexivity.
      * intros n _. rewrite P, <- tot_scal. apply tot_ext. intros; ring.
  - unfold mean_of. apply cv_tot. intros k _. unfold Rdiv. apply CV_mult; [apply cv_const|apply avg_pow].
Qed.
Lemma avg_close m phi f g e : (forall w, 0 <= w <= 1 -> Rabs (f w - g w) <= e) -> Rabs (avg m phi f - avg m phi g) <= e.
Proof.
  intros H. pose proof (step_pos m) as D0. unfold avg. rewrite <- tot_sub. eapply Rle_trans; [apply tot_abs|].
  eapply Rle_trans; [apply (tot_le _ (fun _ => step m * e))|].
  - intros j Hj. rewrite <- tot_sub. eapply Rle_trans; [apply tot_abs|]. eapply Rle_trans; [apply (tot_le _ (fun _ => step m * step m * e))|].
    + intros n _. rewrite <- Rmult_minus_distr_l, Rabs_mult, (Rabs_pos_eq (step m * step m)) by (apply Rmult_le_pos; lra).
      apply Rmult_le_compat_l; [apply Rmult_le_pos; lra|]. apply H. pose proof (rho_sq m j Hj).
      assert (0 <= cos (2 * PI * (INR n * step m) - phi) ^ 2 <= 1) by (pose proof (COS_bound (2 * PI * (INR n * step m) - phi)); split; nra). split; nra.
    + rewrite tot_const, <- (Rmult_assoc (INR (S m))), <- (Rmult_assoc (INR (S m))), step_mul. lra.
  - rewrite tot_const, <- Rmult_assoc, step_mul. lra.
Qed.
Lemma plane_limit p q : Un_cv (fun m => plane_kernel m p q) (c3 (sqrt ((fst p - fst q) * (fst p - fst q) + (snd p - snd q) * (snd p - snd q)))).
Proof.
  destruct (polar (fst p - fst q) (snd p - snd q)) as (phi & E1 & E2). set (r := sqrt _) in *. assert (Hr : 0 <= r) by apply sqrt_pos.
  apply (cv_ext (fun m => avg m phi (fun w => c1 (r * sqrt w)))).
  - intros m. unfold avg, plane_kernel. apply tot_ext. intros j Hj. apply tot_ext. intros n _. f_equal. f_equal. unfold along.
    set (t := 2 * PI * (INR n * step m)). pose proof (rho_sq m j Hj) as RS.
    replace (rho m j * (fst p * cos t + snd p * sin t) - rho m j * (fst q * cos t + snd q * sin t)) with (rho m j * ((fst p - fst q) * cos t + (snd p - snd q) * sin t)) by ring.
    rewrite E1, E2. replace (r * cos phi * cos t + r * sin phi * sin t) with (r * cos (t - phi)) by (rewrite cos_minus; ring).
    rewrite !Rabs_mult, (Rabs_pos_eq r), (Rabs_pos_eq (rho m j)) by (auto; apply sqrt_pos). unfold rho.
    rewrite sqrt_mult by (try apply pow2_ge_0; lra). replace (sqrt (cos (t - phi) ^ 2)) with (Rabs (cos (t - phi))); [ring|].
    rewrite <- Rsqr_pow2. symmetry. apply sqrt_Rsqr_abs.
  - intros e He. destruct (approx r (e / 4) Hr ltac:(lra)) as (f & (d & a & P) & A).
    destruct (avg_poly phi f d a P (e / 4) ltac:(lra)) as [N HN]. exists N. intros m Hm. specialize (HN m Hm). unfold R_dist in *.
    pose proof (avg_close m phi f _ _ A) as X. pose proof (mean_close f d a r _ Hr P A) as Y.
    replace (avg m phi (fun w => c1 (r * sqrt w)) - c3 r) with ((avg m phi f - mean_of d a) + (mean_of d a - c3 r) - (avg m phi f - avg m phi (fun w => c1 (r * sqrt w)))) by ring.
    apply rabs_between in X. apply rabs_between in Y. apply Rabs_def2 in HN. apply Rabs_def1; lra.
Qed.

(** the spherical correlation is positive semidefinite in the plane *)
Theorem spherical_psd :
  psd (fun p q : R * R => c3 (sqrt ((fst p - fst q) * (fst p - fst q) + (snd p - snd q) * (snd p - snd q)))).
Proof. exact (psd_limit plane_kernel _ plane_kernel_psd plane_limit). Qed.
Print Assumptions spherical_psd.
