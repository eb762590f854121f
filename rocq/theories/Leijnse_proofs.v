(** Proofs about the Leijnse formula and the permittivity of water. *)
From Coq Require Import List Reals Lra Lia Bool Psatz.
From Verif Require Import Base Leijnse_model Leijnse_spec.
Import ListNotations.
Local Open Scope R_scope.

Lemma cplx_eq (u v : cplx) : fst u = fst v -> snd u = snd v -> u = v.
Proof. destruct u, v; simpl; intros; subst; auto. Qed.

Definition cnz (u : cplx) : Prop := fst u * fst u + snd u * snd u <> 0.

Lemma cnz_mul u v : cnz u -> cnz v -> cnz (cmul u v).
Proof.
  unfold cnz, cmul. simpl. intros H1 H2.
  replace ((fst u * fst v - snd u * snd v) * (fst u * fst v - snd u * snd v) + (fst u * snd v + snd u * fst v) * (fst u * snd v + snd u * fst v))
    with ((fst u * fst u + snd u * snd u) * (fst v * fst v + snd v * snd v)) by ring.
  apply Rmult_integral_contrapositive_currified; auto.
Qed.

Lemma cdiv_self u : cnz u -> cdiv u u = (1, 0).
Proof. unfold cnz. intros H. apply cplx_eq; unfold cdiv, cmul, cinv; simpl; field; auto. Qed.

Definition nrm (u : cplx) : R := fst u * fst u + snd u * snd u.
Lemma nrm_nonneg u : 0 <= nrm u. Proof. unfold nrm. nra. Qed.

Lemma csqrt_parts u : 0 <= (cabs u + fst u) / 2 /\ 0 <= (cabs u - fst u) / 2.
Proof.
  assert (Rabs (fst u) <= cabs u).
  { unfold cabs. rewrite <- sqrt_Rsqr_abs. apply sqrt_le_1_alt. unfold Rsqr. nra. }
  unfold Rabs in H. destruct (Rcase_abs _); lra.
Qed.

(** [csqrt] is a square root *)
Lemma csqrt_sq u : cmul (csqrt u) (csqrt u) = u.
Proof.
  destruct (csqrt_parts u) as [P M].
  assert (SQ : cabs u * cabs u = nrm u) by (unfold cabs; apply sqrt_sqrt; apply nrm_nonneg).
  pose proof (sqrt_sqrt _ P) as EP. pose proof (sqrt_sqrt _ M) as EM.
  assert (PR : sqrt ((cabs u + fst u) / 2) * sqrt ((cabs u - fst u) / 2) = Rabs (snd u) / 2).
  { rewrite <- sqrt_mult by auto.
    replace ((cabs u + fst u) / 2 * ((cabs u - fst u) / 2)) with (Rsqr (snd u / 2)).
    - rewrite sqrt_Rsqr_abs. unfold Rdiv. rewrite Rabs_mult. rewrite (Rabs_pos_eq (/ 2)) by lra. reflexivity.
    - unfold Rsqr. unfold nrm in SQ. replace ((cabs u + fst u) / 2 * ((cabs u - fst u) / 2)) with ((cabs u * cabs u - fst u * fst u) / 4) by field.
      rewrite SQ. field. }
  apply cplx_eq; unfold csqrt, cmul; simpl; destruct (Rle_dec 0 (snd u)).
  - rewrite EP, EM. field.
  - rewrite EP. replace (- sqrt ((cabs u - fst u) / 2) * - sqrt ((cabs u - fst u) / 2)) with (sqrt ((cabs u - fst u) / 2) * sqrt ((cabs u - fst u) / 2)) by ring.
    rewrite EM. field.
  - rewrite (Rmult_comm (sqrt ((cabs u - fst u) / 2))), PR, Rabs_pos_eq by auto. field.
  - rewrite <- Ropp_mult_distr_r, <- Ropp_mult_distr_l, (Rmult_comm (sqrt ((cabs u - fst u) / 2))), PR.
    rewrite Rabs_left by lra. field.
Qed.

Lemma csqrt_nz u : cnz u -> cnz (csqrt u).
Proof.
  intros H C. apply H. pose proof (csqrt_sq u) as X. unfold cnz in C. destruct (csqrt u) as [p q]. rewrite <- X.
  simpl in *. assert (p = 0) by nra. assert (q = 0) by nra. subst. ring.
Qed.

(** ** permittivity *)
Lemma debye p x : cdiv (cR p) (csub (cR 1) (cj x)) = (p / (1 + x * x), p * x / (1 + x * x)).
Proof. apply cplx_eq; unfold cdiv, csub, cadd, copp, cmul, cinv, cR, cj; simpl; field; nra. Qed.

Lemma eps_parts T : 0 < T <= 339 ->
  exists p q f1, 0 < p /\ 0 < q /\ 0 < f1 /\
  static_permittivity T = optical_permittivity T + p + q /\
  forall f, let g := f * (1 / 10 ^ 9) in
    eps_water f T = (optical_permittivity T + p / (1 + (g / (39.8 * f1)) * (g / (39.8 * f1))) + q / (1 + (g / f1) * (g / f1)),
                     p * (g / (39.8 * f1)) / (1 + (g / (39.8 * f1)) * (g / (39.8 * f1))) + q * (g / f1) / (1 + (g / f1) * (g / f1))).
Proof.
  intros HT. set (th := 1 - 300 / T).
  assert (Hth : th < 0.1151).
  { unfold th. assert (300 / 339 <= 300 / T) by (apply Rmult_le_compat_l; [lra|apply Rinv_le_contravar; lra]). lra. }
  exists (0.0671 * (77.66 - 103.3 * th) - (3.52 + 7.52 * th)), ((77.66 - 103.3 * th) - 0.0671 * (77.66 - 103.3 * th)),
    (20.2 + 146.4 * th + 316 * th * th).
  split; [lra|]. split; [lra|]. split; [pose proof (Rle_0_sqr (th + 732 / 3160)) as SQ; unfold Rsqr in SQ; lra|]. split; [unfold static_permittivity, optical_permittivity; fold th; lra|].
  intros g0 g. unfold eps_water. fold th. rewrite !debye. unfold cadd, cR. simpl fst. simpl snd.
  unfold optical_permittivity. fold th. fold g. rewrite Rplus_0_l. reflexivity.
Qed.

Lemma debye_le p x : 0 <= p -> 0 <= p / (1 + x * x) <= p.
Proof.
  intros Hp. assert (1 <= 1 + x * x) by nra. split.
  - apply Rmult_le_pos; auto. left. apply Rinv_0_lt_compat. lra.
  - apply Rmult_le_reg_r with (1 + x * x); [lra|]. unfold Rdiv. rewrite Rmult_assoc, Rinv_l by lra. nra.
Qed.

Lemma debye_lt p x y : 0 < p -> 0 <= x < y -> p / (1 + y * y) < p / (1 + x * x).
Proof. intros Hp H. apply Rmult_lt_compat_l; auto. apply Rinv_lt_contravar; nra. Qed.

Lemma debye_im p x : 0 < p -> 0 < x -> 0 < p * x / (1 + x * x).
Proof. intros. apply Rdiv_lt_0_compat; nra. Qed.

Lemma permittivity T : 0 < T <= 339 ->
  eps_water 0 T = (static_permittivity T, 0) /\
  (forall f, optical_permittivity T <= fst (eps_water f T) <= static_permittivity T) /\
  (forall f f', 0 <= f -> f < f' -> fst (eps_water f' T) < fst (eps_water f T)) /\
  (forall f, 0 < f -> 0 < snd (eps_water f T)) /\
  0 < static_permittivity T.
Proof.
  intros HT. destruct (eps_parts T HT) as (p & q & f1 & Hp & Hq & Hf & E & EP).
  assert (S0 : 0 < static_permittivity T).
  { unfold static_permittivity. assert (300 / 339 <= 300 / T) by (apply Rmult_le_compat_l; [lra|apply Rinv_le_contravar; lra]). lra. }
  assert (f2 : 0 < 39.8 * f1) by lra.
  assert (D : forall f k, 0 < k -> 0 < f -> 0 < f * (1 / 10 ^ 9) / k) by (intros; apply Rdiv_lt_0_compat; auto; apply Rmult_lt_0_compat; lra).
  assert (D0 : forall f f' k, 0 < k -> 0 <= f < f' -> 0 <= f * (1 / 10 ^ 9) / k < f' * (1 / 10 ^ 9) / k).
  { intros f f' k Hk Hff. assert (0 < / k) by (apply Rinv_0_lt_compat; auto). unfold Rdiv at 1 3. split.
    - apply Rmult_le_pos; lra.
    - apply Rmult_lt_compat_r; lra. }
  split; [|split; [|split; [|split]]]; auto.
  - rewrite EP. rewrite E. apply cplx_eq; simpl; field; lra.
  - intros f. rewrite EP, E. cbn [fst].
    match goal with |- context [p / (1 + ?x * ?x)] => pose proof (debye_le p x (Rlt_le _ _ Hp)) end.
    match goal with |- context [q / (1 + ?x * ?x)] => pose proof (debye_le q x (Rlt_le _ _ Hq)) end. lra.
  - intros f f' H1 H2. rewrite !EP. cbn [fst].
    pose proof (debye_lt p _ _ Hp (D0 f f' (39.8 * f1) f2 (conj H1 H2))).
    pose proof (debye_lt q _ _ Hq (D0 f f' f1 Hf (conj H1 H2))). lra.
  - intros f H1. rewrite EP. cbn [snd].
    pose proof (debye_im p _ Hp (D f (39.8 * f1) f2 H1)). pose proof (debye_im q _ Hq (D f f1 Hf H1)). lra.
Qed.

(** ** the formula at zero rain *)
Lemma slabs (w n ep em : cplx) :
  cadd (cadd (cadd
    (cmul (cmul (cmul (cadd (cR 1) w) (cadd w n)) (cadd n (cR 1))) em)
    (cmul (cmul (cmul (csub (cR 1) w) (csub w n)) (cadd n (cR 1))) em))
    (cmul (cmul (cmul (cadd (cR 1) w) (csub w n)) (csub n (cR 1))) ep))
    (cmul (cmul (cmul (csub (cR 1) w) (cadd w n)) (csub n (cR 1))) ep)
  = cmul (cmul (cR 2) w)
     (cadd (cmul (cmul (cadd (cR 1) n) (cadd (cR 1) n)) em)
           (cmul (copp (cmul (csub (cR 1) n) (csub (cR 1) n))) ep)).
Proof. destruct w, n, ep, em. apply cplx_eq; simpl; ring. Qed.

Lemma formula_zero f T gamma delta n l : cnz (waa_den f T n l) -> waa_formula 0 f T gamma delta n l = 0.
Proof.
  intros H. unfold waa_formula. destruct (Req_EM_T 0 0) as [_|C]; [|lra]. cbv zeta.
  set (w := csqrt (eps_water f T)). set (k := 2 * PI * f / 299792458).
  assert (Z : cmul w (cR (gamma * 0)) = (0, 0)) by (apply cplx_eq; simpl; ring). rewrite Z.
  replace (cadd (cmul n (cR l)) (0, 0)) with (cmul n (cR l)) by (apply cplx_eq; simpl; ring).
  replace (csub (cmul n (cR l)) (0, 0)) with (cmul n (cR l)) by (apply cplx_eq; simpl; ring).
  replace (cmul (cmul (copp (cj k)) n) (cR l)) with (cmul (copp (cj k)) (cmul n (cR l))) by (apply cplx_eq; simpl; ring).
  replace (cmul (cmul (cj k) n) (cR l)) with (cmul (cj k) (cmul n (cR l))) by (apply cplx_eq; simpl; ring).
  rewrite slabs. unfold waa_den in H. fold w in H. fold k in H.
  replace (cmul (cmul (copp (cj k)) n) (cR l)) with (cmul (copp (cj k)) (cmul n (cR l))) in H by (apply cplx_eq; simpl; ring).
  replace (cmul (cmul (cj k) n) (cR l)) with (cmul (cj k) (cmul n (cR l))) in H by (apply cplx_eq; simpl; ring).
  rewrite cdiv_self by exact H. unfold cabs. simpl fst. simpl snd.
  replace (1 * 1 + 0 * 0) with 1 by ring. rewrite sqrt_1. replace (1 ^ 2) with 1 by ring. rewrite ln_1. unfold Rdiv. ring.
Qed.

Lemma nrm_mul u v : nrm (cmul u v) = nrm u * nrm v.
Proof. unfold nrm, cmul. simpl. ring. Qed.

Lemma nrm_cexp u : nrm (cexp u) = exp (2 * fst u).
Proof.
  unfold nrm, cexp. simpl. pose proof (sin2_cos2 (snd u)) as H. unfold Rsqr in H.
  replace (2 * fst u) with (fst u + fst u) by ring. rewrite exp_plus.
  replace (exp (fst u) * cos (snd u) * (exp (fst u) * cos (snd u)) + exp (fst u) * sin (snd u) * (exp (fst u) * sin (snd u)))
    with (exp (fst u) * exp (fst u) * (sin (snd u) * sin (snd u) + cos (snd u) * cos (snd u))) by ring.
  rewrite H. ring.
Qed.

Lemma nz_sum u v : nrm v < nrm u -> cnz (cadd u v).
Proof.
  unfold nrm, cnz, cadd. simpl. intros H C.
  destruct (Rplus_sqr_eq_0 (fst u + fst v) (snd u + snd v) C).
  replace (fst u) with (- fst v) in H by lra. replace (snd u) with (- snd v) in H by lra. lra.
Qed.

Lemma den_nz f T n l : 0 <= f -> 0 < T <= 339 -> 0 < fst n -> 0 <= snd n -> 0 <= l -> cnz (waa_den f T n l).
Proof.
  intros Hf HT Hn Hi Hl. unfold waa_den. cbv zeta.
  destruct (permittivity T HT) as (E0 & _ & _ & EI & S0).
  apply cnz_mul; [apply cnz_mul; [unfold cnz; simpl; lra|]|].
  - apply csqrt_nz. unfold cnz. destruct Hf as [Hf|Hf].
    + specialize (EI f Hf). nra.
    + rewrite <- Hf, E0. simpl. nra.
  - set (k := 2 * PI * f / 299792458).
    assert (Hk : 0 <= k). { unfold k. pose proof PI_RGT_0. apply Rmult_le_pos; [|lra]. apply Rmult_le_pos; lra. }
    apply nz_sum. rewrite !nrm_mul, !nrm_cexp.
    assert (N1 : nrm (copp (cmul (csub (cR 1) n) (csub (cR 1) n))) = nrm (csub (cR 1) n) * nrm (csub (cR 1) n)).
    { rewrite <- nrm_mul. unfold nrm, copp. simpl. ring. }
    rewrite N1.
    assert (A : nrm (csub (cR 1) n) < nrm (cadd (cR 1) n)) by (unfold nrm, csub, cadd, copp, cR; simpl; nra).
    pose proof (nrm_nonneg (csub (cR 1) n)) as P.
    set (x := nrm (csub (cR 1) n)) in *. set (y := nrm (cadd (cR 1) n)) in *.
    assert (F1 : fst (cmul (cmul (cj k) n) (cR l)) = - (k * snd n * l)) by (simpl; ring).
    assert (F2 : fst (cmul (cmul (copp (cj k)) n) (cR l)) = k * snd n * l) by (simpl; ring).
    rewrite F1, F2. assert (Q : 0 <= k * snd n * l) by (apply Rmult_le_pos; auto; apply Rmult_le_pos; auto).
    assert (U : exp (2 * - (k * snd n * l)) <= 1) by (rewrite <- exp_0; destruct Q as [Q|Q]; [left; apply exp_increasing; lra|rewrite <- Q; right; f_equal; ring]).
    assert (V : 1 <= exp (2 * (k * snd n * l))) by (rewrite <- exp_0 at 1; destruct Q as [Q|Q]; [left; apply exp_increasing; lra|rewrite <- Q; right; f_equal; ring]).
    pose proof (exp_pos (2 * - (k * snd n * l))).
    apply Rle_lt_trans with (x * x); [nra|]. apply Rlt_le_trans with (y * y); nra.
Qed.

Lemma leijnse_zero Rr f T gamma delta n l out :
  waa_leijnse_2008 (AArray Rr) (AScalar f) T gamma delta n l = Ok out ->
  length out = length Rr /\ forall i, (i < length Rr)%nat -> get 0 Rr i = 0 -> get 0 out i = 0.
Proof.
  simpl. intros E. injection E as <-. split; [apply map_length|]. intros i Hi H0.
  rewrite get_map with (d := 0) by auto. rewrite H0. destruct (Req_EM_T 0 0); lra.
Qed.

(** the assignment of line 296 changes nothing in exact arithmetic *)
Lemma leijnse_mask_redundant Rr f T gamma delta n l :
  0 <= f -> 0 < T <= 339 -> 0 < fst n -> 0 <= snd n -> 0 <= l ->
  waa_leijnse_2008 (AArray Rr) (AScalar f) T gamma delta n l
  = Ok (map (fun r => waa_formula r f T gamma delta n l) Rr).
Proof.
  intros. simpl. f_equal. apply map_ext. intros r. destruct (Req_EM_T r 0) as [->|]; auto.
  symmetry. apply formula_zero. apply den_nz; auto.
Qed.

Lemma leijnse_scalar r f T gamma delta n l : waa_leijnse_2008 (AScalar r) (AScalar f) T gamma delta n l = Err TypeError.
Proof. reflexivity. Qed.

Lemma leijnse_zero_rain Rr f T gamma delta n l :
  0 <= f -> 0 < T <= 339 -> 0 < fst n -> 0 <= snd n -> 0 <= l ->
  exists out, waa_leijnse_2008 (AArray Rr) (AScalar f) T gamma delta n l = Ok out /\ length out = length Rr /\
  forall i, (i < length Rr)%nat ->
    get 0 out i = waa_formula (get 0 Rr i) f T gamma delta n l /\ (get 0 Rr i = 0 -> get 0 out i = 0).
Proof.
  intros Hf HT Hn Hi Hl. eexists. split; [apply leijnse_mask_redundant; auto|]. split; [apply map_length|].
  intros i Hlt. rewrite get_map with (d := 0) by auto. split; auto.
  intros ->. apply formula_zero. apply den_nz; auto.
Qed.

(** the complex fractions of the code, split into real part and loss *)
Lemma double_debye f T : 0 < T ->
  eps_water f T = (debye_real T (f / 10 ^ 9), debye_loss T (f / 10 ^ 9)).
Proof.
  intros HT. set (th := 1 - 300 / T).
  assert (R1 : relaxation T = 20.2 + 146.4 * th + 316 * th * th) by (unfold relaxation, th; simpl; ring).
  unfold eps_water. fold th. rewrite !debye.
  unfold debye_real, debye_loss, intermediate_permittivity, static_permittivity, optical_permittivity. fold th.
  rewrite R1. replace (f * (1 / 10 ^ 9)) with (f / 10 ^ 9) by (unfold Rdiv; ring).
  set (f1 := 20.2 + 146.4 * th + 316 * th * th). unfold cadd, cR. simpl fst. simpl snd.
  assert (SQ : forall x, x ^ 2 = x * x) by (intros; ring). rewrite Rplus_0_l, !SQ. reflexivity.
Qed.
