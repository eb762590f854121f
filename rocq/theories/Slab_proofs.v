(** Proofs about the transfer matrix description of the Leijnse formula. *)
From Coq Require Import List Reals Lra Lia Bool Psatz Ring.
From Verif Require Import Base Leijnse_model Leijnse_spec Leijnse_proofs Slab_spec.
Local Open Scope R_scope.

Lemma cplx_ring : ring_theory (cR 0) (cR 1) cadd cmul csub copp (@eq cplx).
Proof.
  constructor; intros; try reflexivity; apply cplx_eq; unfold cR, cadd, cmul, csub, copp; simpl; ring.
Qed.
Add Ring cplx_ring : cplx_ring.

Lemma cinv_l u : cnz u -> cmul (cinv u) u = cR 1.
Proof. unfold cnz. intros H. apply cplx_eq; unfold cmul, cinv, cR; simpl; field; auto. Qed.

Lemma cmul_cancel u v w : cnz u -> cmul u v = cmul u w -> v = w.
Proof.
  intros H E. transitivity (cmul (cmul (cinv u) u) v).
  - rewrite cinv_l by auto. ring.
  - transitivity (cmul (cinv u) (cmul u v)); [ring|]. rewrite E.
    transitivity (cmul (cmul (cinv u) u) w); [ring|]. rewrite cinv_l by auto. ring.
Qed.

Lemma cdiv_mul u v : cnz v -> cmul v (cdiv u v) = u.
Proof.
  intros H. unfold cdiv. transitivity (cmul (cmul (cinv v) v) u); [ring|]. rewrite cinv_l by auto. ring.
Qed.

Lemma cexp_add u v : cexp (cadd u v) = cmul (cexp u) (cexp v).
Proof.
  apply cplx_eq; unfold cexp, cadd, cmul; simpl; rewrite exp_plus; [rewrite cos_plus|rewrite sin_plus]; ring.
Qed.

Lemma cR_add x y : cR (x + y) = cadd (cR x) (cR y).
Proof. apply cplx_eq; simpl; ring. Qed.
Lemma two : cR 2 = cadd (cR 1) (cR 1).
Proof. apply cplx_eq; simpl; ring. Qed.
Lemma cnz_2 : cnz (cR 2). Proof. unfold cnz; simpl; lra. Qed.
Lemma cnz_1 : cnz (cR 1). Proof. unfold cnz; simpl; lra. Qed.

Lemma interface_s n n' : cnz n -> cmul (cmul (cR 2) n) (m11 (interface n n')) = cadd n n'.
Proof. intros. simpl. apply cdiv_mul. apply cnz_mul; auto using cnz_2. Qed.
Lemma interface_d n n' : cnz n -> cmul (cmul (cR 2) n) (m12 (interface n n')) = csub n n'.
Proof. intros. simpl. apply cdiv_mul. apply cnz_mul; auto using cnz_2. Qed.

(** the two sums of the code, up to a factor *)
Lemma dry_sum k na la : cnz na ->
  cmul (cmul (cmul (cR 2) (cR 1)) (cmul (cR 2) na)) (m11 (dry_cover k na la))
  = cadd (cmul (cmul (cadd (cR 1) na) (cadd (cR 1) na)) (cexp (cmul (cmul (copp (cj k)) na) (cR la))))
         (cmul (copp (cmul (csub (cR 1) na) (csub (cR 1) na))) (cexp (cmul (cmul (cj k) na) (cR la)))).
Proof.
  intros H.
  replace (cmul (cmul (copp (cj k)) na) (cR la)) with (copp (cmul (cj (k * la)) na)) by (apply cplx_eq; simpl; ring).
  replace (cmul (cmul (cj k) na) (cR la)) with (cmul (cj (k * la)) na) by (apply cplx_eq; simpl; ring).
  set (em := cexp (copp (cmul (cj (k * la)) na))). set (ep := cexp (cmul (cj (k * la)) na)).
  pose proof (interface_s (cR 1) na cnz_1) as S1. pose proof (interface_d (cR 1) na cnz_1) as D1.
  pose proof (interface_s na (cR 1) H) as S2. pose proof (interface_d na (cR 1) H) as D2.
  replace (m11 (dry_cover k na la)) with
    (cadd (cmul (cmul (m11 (interface (cR 1) na)) em) (m11 (interface na (cR 1))))
          (cmul (cmul (m12 (interface (cR 1) na)) ep) (m12 (interface na (cR 1))))).
  2:{ unfold dry_cover, mmul, layer. cbn [m11 m12 m21 m22]. fold em ep. unfold interface. cbn [m11 m12 m21 m22]. ring. }
  transitivity (cadd
    (cmul (cmul (cmul (cmul (cR 2) (cR 1)) (m11 (interface (cR 1) na))) em) (cmul (cmul (cR 2) na) (m11 (interface na (cR 1)))))
    (cmul (cmul (cmul (cmul (cR 2) (cR 1)) (m12 (interface (cR 1) na))) ep) (cmul (cmul (cR 2) na) (m12 (interface na (cR 1)))))); [ring|].
  rewrite S1, D1, S2, D2. ring.
Qed.

Lemma wet_sum k nw lw na la : cnz nw -> cnz na ->
  let sa := cmul na (cR la) in let sw := cmul nw (cR lw) in
  cmul (cmul (cmul (cmul (cR 2) (cR 1)) (cmul (cR 2) nw)) (cmul (cR 2) na)) (m11 (wet_cover k nw lw na la))
  = cadd (cadd (cadd
      (cmul (cmul (cmul (cadd (cR 1) nw) (cadd nw na)) (cadd na (cR 1))) (cexp (cmul (copp (cj k)) (cadd sa sw))))
      (cmul (cmul (cmul (csub (cR 1) nw) (csub nw na)) (cadd na (cR 1))) (cexp (cmul (copp (cj k)) (csub sa sw)))))
      (cmul (cmul (cmul (cadd (cR 1) nw) (csub nw na)) (csub na (cR 1))) (cexp (cmul (cj k) (csub sa sw)))))
      (cmul (cmul (cmul (csub (cR 1) nw) (cadd nw na)) (csub na (cR 1))) (cexp (cmul (cj k) (cadd sa sw)))).
Proof.
  intros Hw H sa sw.
  set (am := cexp (copp (cmul (cj (k * la)) na))). set (ap := cexp (cmul (cj (k * la)) na)).
  set (wm := cexp (copp (cmul (cj (k * lw)) nw))). set (wp := cexp (cmul (cj (k * lw)) nw)).
  assert (E1 : cexp (cmul (copp (cj k)) (cadd sa sw)) = cmul am wm).
  { unfold am, wm. rewrite <- cexp_add. f_equal. apply cplx_eq; simpl; ring. }
  assert (E2 : cexp (cmul (copp (cj k)) (csub sa sw)) = cmul am wp).
  { unfold am, wp. rewrite <- cexp_add. f_equal. apply cplx_eq; simpl; ring. }
  assert (E3 : cexp (cmul (cj k) (csub sa sw)) = cmul ap wm).
  { unfold ap, wm. rewrite <- cexp_add. f_equal. apply cplx_eq; simpl; ring. }
  assert (E4 : cexp (cmul (cj k) (cadd sa sw)) = cmul ap wp).
  { unfold ap, wp. rewrite <- cexp_add. f_equal. apply cplx_eq; simpl; ring. }
  rewrite E1, E2, E3, E4.
  pose proof (interface_s (cR 1) nw cnz_1) as S1. pose proof (interface_d (cR 1) nw cnz_1) as D1.
  pose proof (interface_s nw na Hw) as S2. pose proof (interface_d nw na Hw) as D2.
  pose proof (interface_s na (cR 1) H) as S3. pose proof (interface_d na (cR 1) H) as D3.
  set (s1 := m11 (interface (cR 1) nw)) in *. set (d1 := m12 (interface (cR 1) nw)) in *.
  set (s2 := m11 (interface nw na)) in *. set (d2 := m12 (interface nw na)) in *.
  set (s3 := m11 (interface na (cR 1))) in *. set (d3 := m12 (interface na (cR 1))) in *.
  replace (m11 (wet_cover k nw lw na la)) with
    (cadd (cadd (cadd
      (cmul (cmul (cmul (cmul s1 wm) s2) am) s3)
      (cmul (cmul (cmul (cmul d1 wp) d2) am) s3))
      (cmul (cmul (cmul (cmul s1 wm) d2) ap) d3))
      (cmul (cmul (cmul (cmul d1 wp) s2) ap) d3)).
  2:{ unfold wet_cover, mmul, layer. cbn [m11 m12 m21 m22]. fold am ap wm wp.
      unfold s1, d1, s2, d2, s3, d3, interface. cbn [m11 m12 m21 m22]. ring. }
  set (p1 := cmul (cR 2) (cR 1)) in *. set (p2 := cmul (cR 2) nw) in *. set (p3 := cmul (cR 2) na) in *.
  transitivity (cadd (cadd (cadd
      (cmul (cmul (cmul (cmul (cmul p1 s1) wm) (cmul p2 s2)) am) (cmul p3 s3))
      (cmul (cmul (cmul (cmul (cmul p1 d1) wp) (cmul p2 d2)) am) (cmul p3 s3)))
      (cmul (cmul (cmul (cmul (cmul p1 s1) wm) (cmul p2 d2)) ap) (cmul p3 d3)))
      (cmul (cmul (cmul (cmul (cmul p1 d1) wp) (cmul p2 s2)) ap) (cmul p3 d3))).
  - clearbody p1 p2 p3 s1 d1 s2 d2 s3 d3. clear. ring.
  - rewrite S1, D1, S2, D2, S3, D3. ring.
Qed.

Lemma nrm_cinv u : cnz u -> nrm (cinv u) = / nrm u.
Proof. unfold cnz, nrm, cinv. intros H. simpl. field. auto. Qed.

Lemma cabs_sq u : cabs u ^ 2 = nrm u.
Proof. unfold cabs. rewrite <- Rsqr_pow2. apply Rsqr_sqrt. apply nrm_nonneg. Qed.

Lemma cnz_re n : 0 < fst n -> cnz n.
Proof. unfold cnz. intros. nra. Qed.

(** ** the refractive index of water *)
Lemma water_index f T : 0 <= f -> 0 < T <= 339 ->
  0 < fst (csqrt (eps_water f T)) /\ 0 <= snd (csqrt (eps_water f T)).
Proof.
  intros Hf HT. destruct (permittivity T HT) as (E0 & _ & _ & EI & S0).
  assert (I : 0 <= snd (eps_water f T)).
  { destruct Hf as [Hf|Hf]; [left; auto|rewrite <- Hf, E0; simpl; lra]. }
  split.
  - unfold csqrt. simpl. apply sqrt_lt_R0.
    assert (Z : cabs (eps_water f T) + fst (eps_water f T) <> 0 \/ snd (eps_water f T) <> 0 \/ 0 < fst (eps_water f T)).
    { destruct Hf as [Hf|Hf]; [right; left; specialize (EI f Hf); lra|right; right; rewrite <- Hf, E0; simpl; lra]. }
    destruct (csqrt_parts (eps_water f T)) as [[P|P] _]; auto. exfalso.
    assert (C : cabs (eps_water f T) = - fst (eps_water f T)) by lra.
    pose proof (cabs_sq (eps_water f T)) as Q. rewrite C in Q. unfold nrm in Q.
    assert (snd (eps_water f T) = 0) by nra.
    destruct Hf as [Hf|Hf]; [specialize (EI f Hf); lra|].
    assert (0 <= cabs (eps_water f T)) by (unfold cabs; apply sqrt_pos). rewrite <- Hf, E0 in *. simpl in *. lra.
  - unfold csqrt. cbn [snd fst]. destruct (Rle_dec 0 (snd (eps_water f T))); [apply sqrt_pos|lra].
Qed.

Lemma formula_transmission r f T gamma delta na la :
  0 <= f -> 0 < T <= 339 -> 0 < fst na -> 0 <= snd na -> 0 <= la ->
  let k := wave_number f in
  m11 (wet_cover k (csqrt (eps_water f T)) (film gamma delta r) na la) <> cR 0 ->
  waa_formula r f T gamma delta na la
  = decibel (transmitted (dry_cover k na la)
             / transmitted (wet_cover k (csqrt (eps_water f T)) (film gamma delta r) na la)).
Proof.
  intros Hf HT Hn Hi Hl k NZ.
  destruct (water_index f T Hf HT) as [W _]. set (nw := csqrt (eps_water f T)) in *.
  set (lw := film gamma delta r) in *.
  pose proof (dry_sum k na la (cnz_re _ Hn)) as D. pose proof (wet_sum k nw lw na la (cnz_re _ W) (cnz_re _ Hn)) as X.
  cbv zeta in X.
  pose proof (den_nz f T na la Hf HT Hn Hi Hl) as DN. unfold waa_den in DN. fold nw in DN. fold (wave_number f) in DN. fold k in DN.
  cbv zeta in DN. rewrite <- D in DN.
  unfold waa_formula. fold nw. fold (wave_number f). fold k. fold (film gamma delta r). fold lw. cbv zeta.
  rewrite <- D, <- X. unfold decibel. f_equal. f_equal. f_equal.
  rewrite cabs_sq. unfold cdiv. rewrite nrm_mul, (nrm_cinv _ DN), !nrm_mul.
  unfold transmitted. fold (nrm (m11 (dry_cover k na la))). fold (nrm (m11 (wet_cover k nw lw na la))).
  assert (NA : nrm na <> 0) by (apply (cnz_re _ Hn)). assert (NW : nrm nw <> 0) by (apply (cnz_re _ W)).
  assert (MD : nrm (m11 (dry_cover k na la)) <> 0).
  { intros C. apply DN. fold (nrm (cmul (cmul (cR 2) nw) (cmul (cmul (cmul (cR 2) (cR 1)) (cmul (cR 2) na)) (m11 (dry_cover k na la))))).
    rewrite !nrm_mul, C. ring. }
  assert (MW : nrm (m11 (wet_cover k nw lw na la)) <> 0).
  { intros C. apply NZ. destruct (m11 (wet_cover k nw lw na la)) as [x y]. unfold nrm in C. simpl in C. apply cplx_eq; simpl; nra. }
  replace (nrm (cR 2)) with 4 by (unfold nrm; simpl; ring). replace (nrm (cR 1)) with 1 by (unfold nrm; simpl; ring).
  field. auto.
Qed.

(** ** no layer amplifies *)
Lemma abs_sin x : 0 <= x -> Rabs (sin x) <= x.
Proof.
  intros H. destruct H as [H|<-]; [|rewrite sin_0, Rabs_R0; lra].
  pose proof (sin_lt_x x H). apply Rabs_le. split; [|lra].
  destruct (Rle_dec x 1).
  - assert (0 <= sin x) by (apply sin_ge_0; [lra|]; pose proof PI2_3_2; unfold PI2 in *; lra). lra.
  - pose proof (SIN_bound x). lra.
Qed.

Lemma sinh_ge x : 0 <= x -> x <= sinh x.
Proof.
  intros [H|<-]; [|rewrite sinh_0; lra].
  destruct (MVT_cor2 sinh cosh 0 x H) as (c & E & _).
  { intros c _. apply derivable_pt_lim_sinh. }
  rewrite sinh_0 in E.
  assert (1 <= cosh c).
  { unfold cosh. pose proof (exp_pos c). assert (exp c * exp (- c) = 1) by (rewrite <- exp_plus, <- exp_0; f_equal; ring).
    pose proof (exp_pos (- c)). set (u := exp c) in *. set (v := exp (- c)) in *.
    pose proof (Rle_0_sqr (u - v)) as SQ. unfold Rsqr in SQ.
    assert (2 <= u + v) by (apply Rsqr_incr_0_var; [unfold Rsqr; nra|lra]). lra. }
  nra.
Qed.

(** flux of energy in the medium [n]: the real part of conj(E) H *)
Definition flux (n a b : cplx) : R :=
  let e := cadd a b in let h := cmul n (csub a b) in fst e * fst h + snd e * snd h.

Lemma flux_layer k n l a b : 0 <= k -> 0 <= l -> 0 < fst n -> 0 <= snd n ->
  flux n a b <= flux n (cmul (m11 (layer k n l)) a) (cmul (m22 (layer k n l)) b).
Proof.
  intros Hk Hl Hn Hi. set (phi := k * l * fst n). set (kap := k * l * snd n).
  assert (Hkl : 0 <= k * l) by (apply Rmult_le_pos; auto).
  assert (Hphi : 0 <= phi) by (apply Rmult_le_pos; lra).
  assert (Hkap : 0 <= kap) by (apply Rmult_le_pos; lra).
  assert (A1 : m11 (layer k n l) = (exp kap * cos phi, - (exp kap * sin phi))).
  { unfold layer. simpl m11. apply cplx_eq; unfold cexp; simpl.
    - f_equal; [f_equal; unfold kap; ring|]. rewrite <- cos_neg. f_equal. unfold phi. ring.
    - rewrite Ropp_mult_distr_r, <- sin_neg. f_equal; f_equal; unfold phi, kap; ring. }
  assert (A2 : m22 (layer k n l) = (exp (- kap) * cos phi, exp (- kap) * sin phi)).
  { unfold layer. simpl m22. apply cplx_eq; unfold cexp; simpl; f_equal; f_equal; unfold phi, kap; ring. }
  rewrite A1, A2. destruct a as [a1 a2], b as [b1 b2]. unfold flux, cadd, csub, copp, cmul. simpl fst. simpl snd.
  set (s := sin phi). set (c := cos phi). set (E := exp kap). set (F := exp (- kap)).
  assert (SC : s * s + c * c = 1) by (unfold s, c; pose proof (sin2_cos2 phi) as X; unfold Rsqr in X; lra).
  assert (EF : E * F = 1) by (unfold E, F; rewrite <- exp_plus, <- exp_0; f_equal; ring).
  assert (E0 : 0 < E) by apply exp_pos. assert (F0 : 0 < F) by apply exp_pos.
  set (x := b1 * a1 + b2 * a2). set (y := b1 * a2 - b2 * a1).
  set (A := a1 * a1 + a2 * a2). set (B := b1 * b1 + b2 * b2).
  (* both fluxes in these terms *)
  assert (SL : E * E - 1 = 2 * E * sinh kap) by (unfold sinh; fold E F; rewrite <- EF; field).
  assert (SR : 1 - F * F = 2 * F * sinh kap) by (unfold sinh; fold E F; rewrite <- EF; field).
  set (q := sinh kap) in *. assert (Hq : kap <= q) by (apply sinh_ge; auto).
  assert (XY : x * x + y * y = A * B) by (unfold x, y, A, B; ring).
  assert (HA : 0 <= A) by (unfold A; nra). assert (HB : 0 <= B) by (unfold B; nra).
  set (z := sqrt (A * B)). assert (Z0 : 0 <= z) by apply sqrt_pos.
  assert (ZZ : z * z = A * B) by (apply sqrt_sqrt; apply Rmult_le_pos; auto).
  (* rotation of conj(b) a *)
  assert (ROT : Rabs (- 2 * s * (y * s + x * c)) <= 2 * phi * z).
  { rewrite !Rabs_mult. rewrite (Rabs_left (-2)) by lra. replace (- -2) with 2 by ring.
    apply Rmult_le_compat; try apply Rmult_le_pos; try apply Rabs_pos; try lra.
    - apply Rmult_le_compat_l; [lra|]. apply abs_sin; auto.
    - apply Rsqr_incr_0_var; auto. rewrite <- Rsqr_abs. unfold Rsqr. rewrite ZZ, <- XY.
      pose proof (Rle_0_sqr (y * c - x * s)) as SQ. unfold Rsqr in SQ.
      replace (x * x + y * y) with ((x * x + y * y) * (s * s + c * c)) by (rewrite SC; ring). nra. }
  assert (GROW : 4 * kap * z <= A * (E * E - 1) + B * (1 - F * F)).
  { rewrite SL, SR. assert (AM : 2 * z <= A * E + B * F).
    { apply Rsqr_incr_0_var; [|apply Rplus_le_le_0_compat; apply Rmult_le_pos; lra]. unfold Rsqr.
      replace (2 * z * (2 * z)) with (4 * (A * B)) by (rewrite <- ZZ; ring).
      pose proof (Rle_0_sqr (A * E - B * F)) as SQ. unfold Rsqr in SQ.
      replace (4 * (A * B)) with (4 * (A * B) * (E * F)) by (rewrite EF; ring). nra. }
    apply Rle_trans with (4 * q * z); [nra|].
    replace (A * (2 * E * q) + B * (2 * F * q)) with (2 * q * (A * E + B * F)) by ring. nra. }
  pose proof (Rle_abs (- 2 * s * (y * s + x * c))) as RA.
  match goal with |- ?L <= ?Rr =>
    replace L with (fst n * (A - B) - 2 * snd n * y) by (unfold A, B, y; ring);
    replace Rr with (fst n * (A * (E * E) * (s * s + c * c) - B * (F * F) * (s * s + c * c))
                     - 2 * snd n * (E * F) * (y * (c * c - s * s) - 2 * x * s * c)) by (unfold A, B, x, y; ring)
  end.
  rewrite SC, EF.
  assert (KP : snd n * phi = fst n * kap) by (unfold phi, kap; ring).
  assert (G : fst n * (4 * kap * z) <= fst n * (A * (E * E - 1) + B * (1 - F * F))) by (apply Rmult_le_compat_l; lra).
  replace (y * (c * c - s * s) - 2 * x * s * c) with (y * (s * s + c * c) + (- 2 * s * (y * s + x * c))) by ring.
  rewrite SC. set (rot := - 2 * s * (y * s + x * c)) in *.
  assert (T : 2 * snd n * rot <= 2 * snd n * (2 * phi * z)) by (apply Rmult_le_compat_l; lra).
  replace (2 * snd n * (2 * phi * z)) with (4 * (snd n * phi) * z) in T by ring. rewrite KP in T. lra.
Qed.

Lemma flux_interface n n' a b : cnz n ->
  let M := interface n n' in
  flux n (cadd (cmul (m11 M) a) (cmul (m12 M) b)) (cadd (cmul (m21 M) a) (cmul (m22 M) b)) = flux n' a b.
Proof.
  intros H M. unfold flux.
  assert (S : cmul (cmul (cR 2) n) (m11 M) = cadd n n') by (apply interface_s; auto).
  assert (D : cmul (cmul (cR 2) n) (m12 M) = csub n n') by (apply interface_d; auto).
  assert (M21 : m21 M = m12 M) by reflexivity. assert (M22 : m22 M = m11 M) by reflexivity.
  rewrite M21, M22. set (s := m11 M) in *. set (d := m12 M) in *. clearbody s d.
  assert (N2 : cnz (cmul (cR 2) n)) by (apply cnz_mul; auto using cnz_2).
  assert (E : cadd (cadd (cmul s a) (cmul d b)) (cadd (cmul d a) (cmul s b)) = cadd a b).
  { apply (cmul_cancel _ _ _ N2). transitivity (cmul (cadd (cmul (cmul (cR 2) n) s) (cmul (cmul (cR 2) n) d)) (cadd a b)); [ring|].
    rewrite S, D, two. ring. }
  assert (HH : cmul n (csub (cadd (cmul s a) (cmul d b)) (cadd (cmul d a) (cmul s b))) = cmul n' (csub a b)).
  { apply (cmul_cancel _ _ _ N2). transitivity (cmul n (cmul (csub (cmul (cmul (cR 2) n) s) (cmul (cmul (cR 2) n) d)) (csub a b))); [ring|].
    rewrite S, D, two. ring. }
  rewrite E, HH. reflexivity.
Qed.

(** the amplitudes before the stack *)
Definition app (M : mat) (v : cplx * cplx) : cplx * cplx :=
  (cadd (cmul (m11 M) (fst v)) (cmul (m12 M) (snd v)), cadd (cmul (m21 M) (fst v)) (cmul (m22 M) (snd v))).
Lemma app_mul A B v : app (mmul A B) v = app A (app B v).
Proof. unfold app, mmul. simpl. f_equal; ring. Qed.
Definition vflux n (v : cplx * cplx) := flux n (fst v) (snd v).

Lemma vflux_interface n n' v : cnz n -> vflux n (app (interface n n') v) = vflux n' v.
Proof. intros. apply flux_interface; auto. Qed.
Lemma vflux_layer k n l v : 0 <= k -> 0 <= l -> 0 < fst n -> 0 <= snd n -> vflux n v <= vflux n (app (layer k n l) v).
Proof.
  intros. eapply Rle_trans; [apply (flux_layer k n l); auto|]. right. unfold vflux, app. cbn [fst snd].
  f_equal; cbn [layer m12 m21]; ring.
Qed.

Lemma passive M : 1 <= vflux (cR 1) (app M (cR 1, cR 0)) -> 1 <= nrm (m11 M).
Proof.
  unfold vflux, app. cbn [fst snd].
  replace (cadd (cmul (m11 M) (cR 1)) (cmul (m12 M) (cR 0))) with (m11 M) by ring.
  replace (cadd (cmul (m21 M) (cR 1)) (cmul (m22 M) (cR 0))) with (m21 M) by ring.
  unfold flux, nrm. destruct (m11 M) as [x y], (m21 M) as [u v]. simpl. intros. nra.
Qed.

Lemma out_flux : vflux (cR 1) (cR 1, cR 0) = 1.
Proof. unfold vflux, flux. simpl. ring. Qed.

Lemma dry_passive k na la : 0 <= k -> 0 <= la -> 0 < fst na -> 0 <= snd na -> 1 <= nrm (m11 (dry_cover k na la)).
Proof.
  intros. apply passive. unfold dry_cover. rewrite !app_mul.
  rewrite vflux_interface by apply cnz_1.
  eapply Rle_trans; [|apply vflux_layer; auto]. rewrite vflux_interface by (apply cnz_re; auto). right. symmetry. apply out_flux.
Qed.

Lemma wet_passive k nw lw na la : 0 <= k -> 0 <= la -> 0 < fst na -> 0 <= snd na ->
  0 <= lw -> 0 < fst nw -> 0 <= snd nw -> 1 <= nrm (m11 (wet_cover k nw lw na la)).
Proof.
  intros. apply passive. unfold wet_cover. rewrite !app_mul.
  rewrite vflux_interface by apply cnz_1.
  eapply Rle_trans; [|apply vflux_layer; auto]. rewrite vflux_interface by (apply cnz_re; auto).
  eapply Rle_trans; [|apply vflux_layer; auto]. rewrite vflux_interface by (apply cnz_re; auto). right. symmetry. apply out_flux.
Qed.

Lemma inv_share x : 1 <= x -> 0 < / x <= 1.
Proof. intros. split; [apply Rinv_0_lt_compat; lra|]. rewrite <- Rinv_1. apply Rinv_le_contravar; lra. Qed.

Lemma wave_nonneg f : 0 <= f -> 0 <= wave_number f.
Proof. intros. unfold wave_number. pose proof PI_RGT_0. apply Rmult_le_pos; [|lra]. apply Rmult_le_pos; lra. Qed.

Lemma film_nonneg gamma delta r : 0 <= gamma -> 0 <= film gamma delta r.
Proof.
  intros. unfold film. apply Rmult_le_pos; auto. destruct (Req_EM_T r 0); [lra|]. left. apply exp_pos.
Qed.

Lemma decibel_mono x y : 0 < x -> x <= y -> decibel x <= decibel y.
Proof.
  intros H1 H2. unfold decibel. assert (L : 0 < / ln 10) by (apply Rinv_0_lt_compat; rewrite <- ln_1; apply ln_increasing; lra).
  apply Rmult_le_compat_l; [lra|]. apply Rmult_le_compat_r; [lra|]. destruct H2 as [H2|<-]; [left; apply ln_increasing; auto|lra].
Qed.

Theorem leijnse_physics r f T gamma delta na la :
  0 <= f -> 0 < T <= 339 -> 0 <= gamma -> 0 < fst na -> 0 <= snd na -> 0 <= la ->
  let dry := transmitted (dry_cover (wave_number f) na la) in
  let wet := transmitted (wet_cover (wave_number f) (csqrt (eps_water f T)) (film gamma delta r) na la) in
  0 < dry <= 1 /\ 0 < wet <= 1 /\
  waa_formula r f T gamma delta na la = decibel (dry / wet) /\
  decibel dry <= waa_formula r f T gamma delta na la.
Proof.
  intros Hf HT Hg Hn Hi Hl dry wet. destruct (water_index f T Hf HT) as [W WI].
  pose proof (wave_nonneg f Hf) as Hk. pose proof (film_nonneg gamma delta r Hg) as Hw.
  pose proof (dry_passive (wave_number f) na la Hk Hl Hn Hi) as PD.
  pose proof (wet_passive (wave_number f) (csqrt (eps_water f T)) (film gamma delta r) na la Hk Hl Hn Hi Hw W WI) as PW.
  pose proof (inv_share _ PD) as SD. pose proof (inv_share _ PW) as SW. unfold nrm in SD, SW.
  fold (transmitted (dry_cover (wave_number f) na la)) in SD. fold dry in SD.
  fold (transmitted (wet_cover (wave_number f) (csqrt (eps_water f T)) (film gamma delta r) na la)) in SW. fold wet in SW.
  split; auto. split; auto.
  assert (E : waa_formula r f T gamma delta na la = decibel (dry / wet)).
  { apply formula_transmission; auto. intros C. rewrite C in PW. unfold nrm in PW. simpl in PW. lra. }
  split; auto. rewrite E. apply decibel_mono; [lra|].
  apply Rmult_le_reg_r with wet; [lra|]. unfold Rdiv. rewrite Rmult_assoc, Rinv_l by lra. nra.
Qed.
