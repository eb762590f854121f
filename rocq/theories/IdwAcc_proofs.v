(** * The map in binary64 is close to the map in exact arithmetic *)
From Coq Require Import Reals Lra Lia ZArith Bool Psatz List Permutation Arith.
From Flocq Require Import Core Relative IEEE754.BinarySingleNaN.
From Verif Require Import Base Num NumF64 NumList NpOps RealStat RealSpec Libm Libm64 Ulp64 Idw_model Idw_spec HaversineFloat_spec HaversineFloat_proofs HaversineFloat_proofs2 HaversineAcc_proofs FloatErr_spec FloatErr_proofs
  Idw_proofs Idw_proofs3 IdwSym_proofs IdwFloat_proofs RainFloat_spec RainFloat_proofs SumFloat_proofs IdwSymFloat_spec IdwSymFloat_proofs IdwAcc_spec.
Import ListNotations.
Local Open Scope R_scope.
Local Arguments bpow : simpl never.
Local Notation u := u64.

(** ** computed distances *)
Lemma u_small : 0 < u <= / 1000000.
Proof. rewrite u64_val. lra. Qed.
Lemma n0_small : 0 <= n0 <= u * / 2 ^ 450.
Proof. pose proof n0_pos. split; [lra|]. unfold n0, u64. rewrite <- bpow_neg, <- bpow_plus. apply bpow_le. lia. Qed.
Lemma square_close (x y : F64) a b : is_num x a -> is_num y b -> Rabs (a - b) <= 2 ^ 41 ->
  exists P, is_num (n_mul (n_sub x y) (n_sub x y)) P /\ 0 <= P /\ Rabs (P - (a - b) * (a - b)) <= 3.1 * u * ((a - b) * (a - b)) + n0 /\ (a - b = 0 -> P = 0).
Proof.
  intros X Y B. pose proof u_small as U. pose proof (sub_rel x y a b X Y) as SR. set (D := a - b) in *.
  assert (BB : Rabs D <= big) by (apply Rle_trans with (1 := B), pow_big; lia).
  pose proof (is_sub x y a b X Y BB) as IS. fold D in IS. set (A := rnd64 D) in *.
  assert (AB : Rabs A <= 2 ^ 42).
  { replace A with ((A - D) + D) by ring. eapply Rle_trans; [apply Rabs_triang|]. pose proof (Rabs_pos D). replace (2 ^ 42) with (2 * 2 ^ 41) by (simpl; lra). nra. }
  assert (A2 : Rabs (A * A) <= big). { rewrite Rabs_mult. apply Rle_trans with (2 ^ 42 * 2 ^ 42); [apply Rmult_le_compat; auto; apply Rabs_pos|]. rewrite <- pow_add. apply pow_big. lia. }
  exists (rnd64 (A * A)). split; [apply is_mul; auto|]. assert (AP : 0 <= A * A) by nra. split; [apply rnd64_nonneg; auto|]. split.
  - pose proof (rnd64_close (A * A)) as C. rewrite (Rabs_pos_eq (A * A)) in C by auto.
    assert (DD : Rabs (A * A - D * D) <= 2.01 * u * (D * D)).
    { replace (A * A - D * D) with ((A - D) * (A - D) + 2 * D * (A - D)) by ring. eapply Rle_trans; [apply Rabs_triang|]. rewrite !Rabs_mult, (Rabs_pos_eq 2) by lra.
      set (q := Rabs (A - D)) in *. assert (0 <= q) by apply Rabs_pos. set (d := Rabs D) in *. assert (0 <= d) by apply Rabs_pos. replace (D * D) with (d * d) by (unfold d; rewrite <- Rabs_mult; apply Rabs_pos_eq; nra).
      assert (q * q <= (u * d) * (u * d)) by (apply Rmult_le_compat; lra). assert (2 * d * q <= 2 * d * (u * d)) by (apply Rmult_le_compat_l; lra). assert (0 <= d * d) by nra. nra. }
    apply Rabs_le_inv in C, DD. assert (0 <= D * D) by nra. apply Rabs_le.
    assert (u * (A * A) <= u * ((D * D) + 2.01 * u * (D * D))) by (apply Rmult_le_compat_l; lra).
    assert (u * (D * D + 2.01 * u * (D * D)) <= 1.01 * u * (D * D)) by nra. lra.
  - intros E. unfold A. rewrite E, rnd64_0, Rmult_0_r. apply rnd64_0.
Qed.
Lemma dist_sq (a b : rpt) : rdist a b * rdist a b = (fst a - fst b) * (fst a - fst b) + (snd a - snd b) * (snd a - snd b).
Proof. unfold rdist. apply sqrt_sqrt. pose proof (Rle_0_sqr (fst a - fst b)). pose proof (Rle_0_sqr (snd a - snd b)). unfold Rsqr in *. lra. Qed.
Lemma dist_nonneg a b : 0 <= rdist a b.
Proof. apply sqrt_pos. Qed.
Lemma number_is x : number x -> is_num x (B2R x).
Proof. intros H. exact (number_B2R x H). Qed.
Lemma sqdist_close (a b : place) : finite_place a -> finite_place b -> let d := rdist (rpt_of a) (rpt_of b) in
  (d = 0 \/ / 2 ^ 30 <= d <= 2 ^ 40) -> exists s, is_num (sqdist a b) s /\ 0 <= s /\ Rabs (s - d * d) <= 6 * u * (d * d).
Proof.
  intros (A1 & A2) (B1 & B2) d HD. pose proof (number_is _ A1) as IA1. pose proof (number_is _ A2) as IA2. pose proof (number_is _ B1) as IB1. pose proof (number_is _ B2) as IB2.
  set (x := B2R (fst a)) in *. set (y := B2R (snd a)) in *. set (x' := B2R (fst b)) in *. set (y' := B2R (snd b)) in *.
  pose proof (dist_sq (rpt_of a) (rpt_of b)) as DS. fold d in DS. unfold rpt_of in DS. cbn [fst snd] in DS. fold x y x' y' in DS.
  pose proof (dist_nonneg (rpt_of a) (rpt_of b)) as D0. fold d in D0.
  set (p := x - x') in *. set (q := y - y') in *.
  assert (DB : d <= 2 ^ 40). { destruct HD as [->|HD]; [apply pow_le; lra|lra]. }
  assert (PB : Rabs p <= 2 ^ 41 /\ Rabs q <= 2 ^ 41).
  { assert (K : forall t, t * t <= d * d -> Rabs t <= 2 ^ 41).
    { intros t T. apply Rle_trans with (Rabs d); [apply Rsqr_le_abs_0; exact T|]. rewrite Rabs_pos_eq by auto. replace (2 ^ 41) with (2 * 2 ^ 40) by (simpl; lra). lra. }
    split; apply K; nra. }
  destruct (square_close (fst a) (fst b) x x' IA1 IB1 (proj1 PB)) as (P & IP & P0 & EP & ZP). destruct (square_close (snd a) (snd b) y y' IA2 IB2 (proj2 PB)) as (Q & IQ & Q0 & EQ & ZQ).
  fold p q in EP, EQ, ZP, ZQ. pose proof u_small as U. pose proof n0_small as N. apply Rabs_le_inv in EP, EQ.
  assert (N1 : n0 <= 1). { assert (/ 2 ^ 450 <= 1). { rewrite <- Rinv_1. apply Rinv_le; [lra|]. apply pow_R1_Rle. lra. } nra. }
  assert (DD : d * d <= 2 ^ 80). { replace (2 ^ 80) with (2 ^ 40 * 2 ^ 40) by (rewrite <- pow_add; auto). apply Rmult_le_compat; auto. }
  assert (SB : Rabs (P + Q) <= big).
  { rewrite Rabs_pos_eq by lra. apply Rle_trans with (2 ^ 82); [|apply pow_big; lia]. replace (2 ^ 82) with (4 * 2 ^ 80) by (simpl; lra). assert (O1 : 1 <= 2 ^ 80) by (apply pow_R1_Rle; lra).
    assert (3.1 * u * (p * p) <= 0.1 * (p * p)) by (apply Rmult_le_compat_r; [apply Rle_0_sqr|lra]). assert (3.1 * u * (q * q) <= 0.1 * (q * q)) by (apply Rmult_le_compat_r; [apply Rle_0_sqr|lra]).
    set (T := 2 ^ 80) in *. clearbody T. lra. }
  exists (rnd64 (P + Q)). split; [apply is_add; auto|]. split; [apply rnd64_nonneg; lra|].
  destruct HD as [HD|HD].
  - assert (p = 0 /\ q = 0) as (Z1 & Z2) by (rewrite HD in DS; split; nra). rewrite ZP, ZQ by auto. rewrite Rplus_0_r, rnd64_0, HD. rewrite !Rmult_0_r, Rminus_0_r, Rabs_R0. lra.
  - pose proof (rnd64_close (P + Q)) as C. rewrite (Rabs_pos_eq (P + Q)) in C by lra. apply Rabs_le_inv in C.
    assert (NS : n0 <= 0.01 * u * (d * d)).
    { assert (LB : / 2 ^ 60 <= d * d). { replace (/ 2 ^ 60) with (/ 2 ^ 30 * / 2 ^ 30) by (rewrite inv_mul_pow; auto). apply Rmult_le_compat; try lra; apply Rlt_le, ipow2_pos. }
      assert (/ 2 ^ 450 <= 0.01 * / 2 ^ 60). { apply Rle_trans with (/ 2 ^ 70); [apply inv_pow_le; lia|]. replace (/ 2 ^ 70) with (/ 2 ^ 10 * / 2 ^ 60) by (rewrite inv_mul_pow; auto). apply Rmult_le_compat_r; [apply Rlt_le, ipow2_pos|]. simpl. lra. }
      assert (u * / 2 ^ 450 <= u * (0.01 * / 2 ^ 60)) by (apply Rmult_le_compat_l; lra). nra. }
    set (S := d * d) in *. assert (S0 : 0 <= S) by nra. apply Rabs_le.
    assert (US : 0 <= u * S) by nra. assert (PQ : 3.1 * u * (p * p) + 3.1 * u * (q * q) = 3.1 * (u * S)) by (rewrite DS; ring).
    assert (U2 : u * (u * S) <= 0.01 * (u * S)) by (apply Rmult_le_compat_r; lra).
    assert (UP : u * (P + Q) <= u * (S + 3.2 * (u * S))) by (apply Rmult_le_compat_l; lra). replace (u * (S + 3.2 * (u * S))) with (u * S + 3.2 * (u * (u * S))) in UP by ring.
    replace (0.01 * u * S) with (0.01 * (u * S)) in NS by ring. lra.
Qed.
Lemma sqrt_near S s h : 0 < S -> 0 <= s -> 0 <= h -> Rabs (s - S) <= h * S -> Rabs (sqrt s - sqrt S) <= h * sqrt S.
Proof.
  intros HS Hs Hh H. pose proof (sqrt_pos s) as A. assert (B : 0 < sqrt S) by (apply sqrt_lt_R0; auto).
  assert (E : (sqrt s - sqrt S) * (sqrt s + sqrt S) = s - S). { replace ((sqrt s - sqrt S) * (sqrt s + sqrt S)) with (sqrt s * sqrt s - sqrt S * sqrt S) by ring. rewrite !sqrt_sqrt; lra. }
  assert (F : Rabs (sqrt s - sqrt S) * (sqrt s + sqrt S) = Rabs (s - S)) by (rewrite <- E, Rabs_mult; f_equal; symmetry; apply Rabs_pos_eq; lra).
  apply Rmult_le_reg_r with (sqrt S); auto. apply Rle_trans with (Rabs (s - S)).
  - rewrite <- F. apply Rmult_le_compat_l; [apply Rabs_pos|lra].
  - replace (h * sqrt S * sqrt S) with (h * S); [auto|]. rewrite Rmult_assoc, sqrt_sqrt; lra.
Qed.
Lemma distance_close (a b : place) : finite_place a -> finite_place b -> let d := rdist (rpt_of a) (rpt_of b) in
  / 2 ^ 30 <= d <= 2 ^ 40 -> exists s, is_num (n_sqrt (sqdist a b)) s /\ Rabs (s - d) <= 8 * u * d.
Proof.
  intros FA FB d HD. destruct (sqdist_close a b FA FB (or_intror HD)) as (s & IS & S0 & ES). fold d in ES. pose proof u_small as U. pose proof n0_small as N.
  pose proof (ipow2_pos 30) as P30. assert (DD : 0 < d * d) by nra.
  pose proof (sqrt_near (d * d) s (6 * u) DD S0 ltac:(lra) ES) as SN. rewrite sqrt_square in SN by lra.
  apply Rabs_le_inv in SN. assert (SB : sqrt s <= 2 * d) by nra. assert (SP : 0 <= sqrt s) by apply sqrt_pos.
  exists (rnd64 (sqrt s)). split.
  - apply is_sqrt; auto. apply Rle_trans with (2 ^ 41); [replace (2 ^ 41) with (2 * 2 ^ 40) by (simpl; lra); lra|apply pow_big; lia].
  - pose proof (rnd64_close (sqrt s)) as C. rewrite (Rabs_pos_eq (sqrt s)) in C by auto. apply Rabs_le_inv in C.
    assert (NS : n0 <= 0.01 * u * d).
    { assert (/ 2 ^ 450 <= 0.01 * / 2 ^ 30). { apply Rle_trans with (/ 2 ^ 40); [apply inv_pow_le; lia|]. replace (/ 2 ^ 40) with (/ 2 ^ 10 * / 2 ^ 30) by (rewrite inv_mul_pow; auto). apply Rmult_le_compat_r; [lra|]. simpl. lra. }
      assert (u * / 2 ^ 450 <= u * (0.01 * / 2 ^ 30)) by (apply Rmult_le_compat_l; lra). nra. }
    assert (u * sqrt s <= u * (d + 6 * u * d)) by (apply Rmult_le_compat_l; lra). assert (u * (d + 6 * u * d) <= 1.1 * (u * d)) by nra. apply Rabs_le. lra.
Qed.

(** ** computed weights *)
Lemma rpower_bounds d p : / 2 ^ 40 <= d <= 2 ^ 40 -> 0 <= p <= 4 -> / 2 ^ 160 <= Rpower d p <= 2 ^ 160.
Proof.
  intros H HP. pose proof (ipow2_pos 40) as I40. pose proof (pow2_pos 40) as P40.
  assert (K : forall x, 0 < x -> x = exp (ln x)) by (intros; rewrite exp_ln; auto).
  rewrite (K (2 ^ 160) (pow2_pos 160)), <- exp_Ropp, ln_pow2. unfold Rpower.
  assert (M : Rabs (ln d) <= 40 * ln 2).
  { replace 40 with (INR 40) by (simpl; lra). rewrite <- ln_pow2. apply Rabs_le. split; [rewrite <- ln_Rinv by auto; apply ln_le; lra|apply ln_le; lra]. }
  pose proof ln2_le. replace (INR 160) with 160 by (simpl; lra). apply Rabs_le_inv in M.
  assert (XE : forall x y, x <= y -> exp x <= exp y) by (intros x y [Q|Q]; [left; apply exp_increasing; auto|rewrite Q; lra]).
  split; apply XE; nra.
Qed.
Lemma rpower_near d s p : 0 < d -> Rabs (s - d) <= 8 * u * d -> 0 <= p <= 4 -> Rabs (Rpower s p - Rpower d p) <= 9 * p * u * Rpower d p.
Proof.
  intros D H P. pose proof u_small as U. set (h := (s - d) / d). assert (E : s = d * (1 + h)) by (unfold h; field; lra).
  assert (HH : Rabs h <= 8 * u). { unfold h, Rdiv. rewrite Rabs_mult, (Rabs_pos_eq (/ d)) by (apply Rlt_le, Rinv_0_lt_compat; auto). apply Rmult_le_reg_r with d; auto. rewrite Rmult_assoc, Rinv_l by lra. lra. }
  assert (H1 : 0 < 1 + h) by (apply Rabs_le_inv in HH; lra). set (t := p * ln (1 + h)).
  assert (RP : Rpower s p = Rpower d p * exp t). { unfold Rpower, t. rewrite E, ln_mult by auto. rewrite <- exp_plus. f_equal. ring. }
  pose proof (ln_near h ltac:(lra)) as LN. assert (TB : Rabs t <= p * (1.02 * (8 * u))). { unfold t. rewrite Rabs_mult, (Rabs_pos_eq p) by lra. apply Rmult_le_compat_l; [lra|]. lra. }
  assert (PU : 0 <= p * u <= 4 * u) by nra. pose proof (exp_near t ltac:(lra)) as EN.
  rewrite RP. replace (Rpower d p * exp t - Rpower d p) with (Rpower d p * (exp t - 1)) by ring. rewrite Rabs_mult, (Rabs_pos_eq (Rpower d p)) by (apply Rlt_le, exp_pos).
  rewrite (Rmult_comm (9 * p * u)). apply Rmult_le_compat_l; [apply Rlt_le, exp_pos|]. lra.
Qed.
Lemma weight_close (L : libm F64) e (x p : F64) d s pr : pow_accurate L e -> 0 <= e <= / 1000 -> is_num x s -> is_num p pr -> 0 <= pr <= 4 -> / 2 ^ 30 <= d <= 2 ^ 40 -> Rabs (s - d) <= 8 * u * d ->
  exists r, is_num (m_pow L x p) r /\ / 2 ^ 200 <= r <= 2 ^ 200 /\
  exists w, is_num (n_div one (m_pow L x p)) w /\ Rabs (w - / Rpower d pr) <= 1.1 * (e + 9 * pr * u + u) * / Rpower d pr.
Proof.
  intros PA E X P PR D SD. pose proof u_small as U. pose proof (ipow2_pos 30) as I30. assert (D0 : 0 < d) by lra.
  assert (D40 : / 2 ^ 40 <= d <= 2 ^ 40) by (pose proof (inv_pow_le 30 40 ltac:(lia)); lra).
  pose proof (rpower_bounds d pr D40 PR) as RB. pose proof (rpower_near d s pr D0 SD PR) as RN. set (W := Rpower d pr) in *. pose proof (ipow2_pos 160) as I160. assert (W0 : 0 < W) by lra.
  assert (PU : 0 <= pr * u <= 4 * u) by nra.
  assert (RN' : Rabs (Rpower s pr - W) <= 0.01 * W). { apply Rle_trans with (1 := RN). apply Rmult_le_compat_r; lra. }
  apply Rabs_le_inv in RN'. assert (S0 : 0 < s) by (apply Rabs_le_inv in SD; nra).
  assert (H161 : 2 * 2 ^ 160 = 2 ^ 161 /\ / 2 * / 2 ^ 160 = / 2 ^ 161) by (split; [simpl; lra|rewrite <- Rinv_mult; f_equal]).
  assert (G : forall r, 0.9 * W <= r <= 1.1 * W -> / 2 ^ 161 <= r <= 2 ^ 161) by (intros r Hr; lra).
  assert (M1 : / 2 ^ 300 <= / 2 ^ 161) by (apply inv_pow_le; lia). assert (M2 : 2 ^ 161 <= 2 ^ 300) by (apply Rle_pow; [lra|lia]).
  assert (M3 : / 2 ^ 200 <= / 2 ^ 161) by (apply inv_pow_le; lia). assert (M4 : 2 ^ 161 <= 2 ^ 200) by (apply Rle_pow; [lra|lia]).
  pose proof (G (Rpower s pr) ltac:(lra)) as GS.
  destruct (pa_pos L e PA x p s pr X P S0 ltac:(lra)) as (r & IR & ER).
  (* r = W (1 + y) *)
  set (y := (r - W) / W). assert (RY : r = W * (1 + y)) by (unfold y; field; lra).
  assert (YB : Rabs y <= e + 9.1 * (pr * u)).
  { unfold y, Rdiv. rewrite Rabs_mult, (Rabs_pos_eq (/ W)) by (apply Rlt_le, Rinv_0_lt_compat; auto). apply Rmult_le_reg_r with W; auto. rewrite Rmult_assoc, Rinv_l, Rmult_1_r by lra.
    replace (r - W) with ((r - Rpower s pr) + (Rpower s pr - W)) by ring. eapply Rle_trans; [apply Rabs_triang|]. apply Rabs_le_inv in RN as RN2.
    assert (e * Rpower s pr <= e * (W + 9 * pr * u * W)) by (apply Rmult_le_compat_l; lra). assert (0 <= pr * u * W) by nra. assert (e * (9 * pr * u * W) <= 0.1 * (pr * u * W)) by nra. lra. }
  assert (Y1 : e + 9.1 * (pr * u) <= 0.0011) by lra. apply Rabs_le_inv in YB as YB2.
  pose proof (G r ltac:(rewrite RY; nra)) as GR.
  assert (R0 : 0 < r) by lra.
  exists r. split; auto. split; [lra|].
  assert (IB : / 2 ^ 161 <= 1 / r <= 2 ^ 161). { unfold Rdiv. rewrite Rmult_1_l. split; [apply Rinv_le; lra|]. rewrite <- (Rinv_inv (2 ^ 161)). apply Rinv_le; [apply ipow2_pos|lra]. }
  destruct (norm (1 / r) ltac:(pose proof (ipow2_pos 161); lra) ltac:(lra)) as (t & T & ET).
  exists (1 / r * (1 + t)). split.
  - rewrite <- ET. apply is_div; [apply is_one|auto|lra|]. rewrite Rabs_pos_eq by (pose proof (ipow2_pos 161); lra). apply Rle_trans with (2 ^ 161); [lra|apply pow_big; lia].
  - assert (IW : 0 < / W) by (apply Rinv_0_lt_compat; auto).
    replace (1 / r * (1 + t) - / W) with (((t - y) * / (1 + y)) * / W) by (rewrite RY; field; split; lra).
    rewrite Rabs_mult, (Rabs_pos_eq (/ W)) by lra. apply Rmult_le_compat_r; [lra|]. rewrite Rabs_mult, (Rabs_pos_eq (/ (1 + y))) by (apply Rlt_le, Rinv_0_lt_compat; lra).
    apply Rmult_le_reg_r with (1 + y); [lra|]. rewrite Rmult_assoc, Rinv_l, Rmult_1_r by lra. apply Rle_trans with (u + (e + 9.1 * (pr * u))).
    + replace (t - y) with (t + - y) by ring. eapply Rle_trans; [apply Rabs_triang|]. rewrite Rabs_Ropp. lra.
    + assert (1.1 * (e + 9 * pr * u + u) * 0.9989 <= 1.1 * (e + 9 * pr * u + u) * (1 + y)) by (apply Rmult_le_compat_l; [lra|lra]). lra.
Qed.

(** ** weighted means with slightly wrong weights *)
Lemma rsum_scale {A} (f : A -> R) c l : rsum (map (fun e => c * f e) l) = c * rsum (map f l).
Proof. rewrite <- (Rplus_0_r (c * rsum (map f l))), <- (Rmult_0_r (INR (length l))), <- (rsum_map_lin f c 0). f_equal. apply map_ext. intros. ring. Qed.
Lemma means_close {A} (w om z : A -> R) l t M A0 : l <> [] -> 0 <= t <= / 100 -> (forall e, In e l -> 0 < om e /\ Rabs (w e - om e) <= t * om e /\ Rabs (z e) <= M) ->
  A0 * rsum (map om l) = rsum (map (fun e => z e * om e) l) -> Rabs (rsum (map (fun e => w e / rsum (map w l) * z e) l) - A0) <= 2.1 * t * M.
Proof.
  intros NE T H HA. set (Om := rsum (map om l)) in *. set (W := rsum (map w l)).
  assert (O0 : 0 < Om) by (apply rsum_pos; auto; intros; apply H; auto).
  assert (WO : Rabs (W - Om) <= t * Om).
  { unfold W, Om. rewrite rsum_map_minus. eapply Rle_trans; [apply rsum_asum|]. unfold asum. rewrite map_map, <- rsum_scale. apply rsum_map_le. intros e He. apply H; auto. }
  apply Rabs_le_inv in WO. assert (W0 : 0.99 * Om <= W) by nra.
  assert (AM : Rabs A0 <= M).
  { apply Rmult_le_reg_r with Om; auto. rewrite <- (Rabs_pos_eq Om) at 1 by lra. rewrite <- Rabs_mult, HA. eapply Rle_trans; [apply rsum_asum|]. unfold asum, Om. rewrite map_map, <- rsum_scale.
    apply rsum_map_le. intros e He. destruct (H e He) as (A1 & _ & A3). rewrite Rabs_mult, (Rabs_pos_eq (om e)) by lra. apply Rmult_le_compat_r; lra. }
  assert (E : (rsum (map (fun e => w e / W * z e) l) - A0) * W = rsum (map (fun e => (w e - om e) * (z e - A0)) l)).
  { assert (E1 : rsum (map (fun e => w e / W * z e) l) * W = rsum (map (fun e => w e * z e) l)).
    { rewrite Rmult_comm, <- rsum_scale. f_equal. apply map_ext. intros e. field. lra. }
    assert (E2 : rsum (map (fun e => (w e - om e) * (z e - A0)) l) = rsum (map (fun e => w e * z e) l) - A0 * W - (rsum (map (fun e => z e * om e) l) - A0 * Om)).
    { unfold W, Om. clear. induction l as [|e l IH]; cbn [map rsum fold_right]; [lra|].
      fold (rsum (map (fun e => (w e - om e) * (z e - A0)) l)) (rsum (map (fun e => w e * z e) l)) (rsum (map w l)) (rsum (map om l)) (rsum (map (fun e => z e * om e) l)). rewrite IH. ring. }
    rewrite E2, <- HA. lra. }
  assert (B : Rabs ((rsum (map (fun e => w e / W * z e) l) - A0) * W) <= 2 * M * t * Om).
  { rewrite E. eapply Rle_trans; [apply rsum_asum|]. unfold asum, Om. rewrite map_map, <- rsum_scale. apply rsum_map_le. intros e He. destruct (H e He) as (A1 & A2 & A3). rewrite Rabs_mult.
    apply Rle_trans with (t * om e * (2 * M)); [|right; ring]. apply Rmult_le_compat; try apply Rabs_pos; auto. replace (z e - A0) with (z e + - A0) by ring. eapply Rle_trans; [apply Rabs_triang|]. rewrite Rabs_Ropp. lra. }
  rewrite Rabs_mult, (Rabs_pos_eq W) in B by lra. apply Rmult_le_reg_r with W; [lra|]. apply Rle_trans with (1 := B).
  assert (M0 : 0 <= M) by (pose proof (Rabs_pos A0); lra). assert (0 <= t * M) by nra.
  replace (2 * M * t * Om) with (2 * (t * M) * Om) by ring. replace (2.1 * t * M * W) with (2.1 * (t * M) * W) by ring. nra.
Qed.

(** ** the same neighbours are selected *)
Lemma nearest_transfer (f g : nat -> R) n k ubf ubg used :
  (forall i j, (i < n)%nat -> (j < n)%nat -> g i < g j -> f i < f j) -> (forall i, (i < n)%nat -> in_range f ubf i <-> in_range g ubg i) ->
  is_nearest f n k ubf used -> is_nearest g n k ubg used.
Proof.
  intros M B [C1 C2 C3 C4 C5].
  assert (M' : forall i j, (i < n)%nat -> (j < n)%nat -> f i <= f j -> g i <= g j) by (intros i j Hi Hj H; destruct (Rle_lt_dec (g i) (g j)) as [|Q]; auto; apply M in Q; auto; lra).
  assert (U : forall a, (a < length used)%nat -> (get 0%nat used a < n)%nat) by (intros a Ha; apply C3, get_In; auto).
  constructor; auto.
  - intros i Hi. destruct (C3 i Hi) as (A & D). split; auto. apply B; auto.
  - intros a b Ha Hb. apply M'; [apply U; lia|apply U; lia|]. apply C4; auto.
  - intros i Hi NI R. destruct (C5 i Hi NI (proj2 (B i Hi) R)) as (A & D). split; auto. intros j Hj. apply M'; auto. apply C3; auto.
Qed.
Lemma nearest_unique (d : nat -> R) n k ub used used' : injective d n -> is_nearest d n k ub used -> is_nearest d n k ub used' -> used = used'.
Proof.
  intros HI A B.
  pose proof (nearest_gsel nat d d (fun i => i) n (fun i _ => eq_refl) k ub used HI A) as GA. pose proof (nearest_gsel nat d d (fun i => i) n (fun i _ => eq_refl) k ub used' HI B) as GB.
  rewrite map_id in GA, GB. apply (gsel_unique nat d (gpairs nat d (fun i => i) n ub) k); auto.
  intros e f (i & Hi & _ & ->) (j & Hj & _ & ->) E. apply HI; auto.
Qed.
Lemma sep_squares a b s t : 0 <= a -> a < b -> / 2 ^ 40 * b < b - a -> Rabs (s - a * a) <= 6 * u * (a * a) -> Rabs (t - b * b) <= 6 * u * (b * b) -> s < t.
Proof.
  intros A AB H HS HT. apply Rabs_le_inv in HS, HT. assert (E : u * 8192 = / 2 ^ 40) by (rewrite u64_val; simpl; lra). pose proof u_small as U.
  assert (b * b - a * a >= (b - a) * b) by nra. assert (u * 8192 * (b * b) < (b - a) * b) by (rewrite E; nra). assert (a * a <= b * b) by nra. assert (0 <= u * (a * a) <= u * (b * b)) by nra. nra.
Qed.
Section Select.
Variables (X : list place) (q : place) (ub : option F64).
Notation dflt := ((n_nan, n_nan) : place).
Let Xr := map rpt_of X.
Let d := dist_to Xr (rpt_of q).
Let s (i : nat) : R := B2R (sqdist q (get dflt X i)).
Hypothesis (FX : forall x, In x X -> finite_place x) (FQ : finite_place q) (FU : forall w, ub = Some w -> number w).
Hypothesis WA : well_apart (rpt_of q) Xr (option_map (fun w : F64 => B2R w) ub).
Lemma d_get i : (i < length X)%nat -> d i = rdist (rpt_of q) (rpt_of (get dflt X i)).
Proof using. intros H. unfold d, dist_to, Xr. rewrite (get_map rpt_of dflt) by auto. reflexivity. Qed.
Lemma d_range i : (i < length X)%nat -> d i = 0 \/ / 2 ^ 30 <= d i <= 2 ^ 40.
Proof using WA. intros H. rewrite d_get by auto. apply (wa_range _ _ _ WA). unfold Xr. apply in_map, get_In. auto. Qed.
Lemma d_nonneg i : 0 <= d i.
Proof using. apply dist_nonneg. Qed.
Lemma s_close i : (i < length X)%nat -> number (sqdist q (get dflt X i)) /\ 0 <= s i /\ Rabs (s i - d i * d i) <= 6 * u * (d i * d i).
Proof using FX FQ WA.
  intros H. destruct (sqdist_close q (get dflt X i) FQ (FX _ (get_In _ _ _ H))) as (v & I & P & C); [rewrite <- d_get by auto; apply d_range; auto|].
  split; [exists v; exact I|]. unfold s. rewrite (f_val_B2R _ v I). rewrite d_get by auto. auto.
Qed.
Lemma all_number : forall x, In x X -> number (sqdist q x).
Proof using FX FQ WA. intros x Hx. apply In_get with (d := dflt) in Hx. destruct Hx as (i & Hi & <-). apply s_close. auto. Qed.
Lemma d_injective : injective d (length X).
Proof using WA.
  intros i j Hi Hj E. destruct (Nat.eq_dec i j) as [|N]; auto. exfalso. assert (LX : length Xr = length X) by apply map_length.
  pose proof (wa_distinct _ _ _ WA i j ltac:(lia) ltac:(lia) N) as H. fold d in H. rewrite E, Rminus_eq_0, Rabs_R0 in H.
  pose proof (d_nonneg j). pose proof (ipow2_pos 40). nra.
Qed.
Lemma order_kept i j : (i < length X)%nat -> (j < length X)%nat -> d i < d j -> s i < s j.
Proof using FX FQ WA.
  intros Hi Hj H. assert (LX : length Xr = length X) by apply map_length. assert (N : i <> j) by (intros ->; lra).
  pose proof (wa_distinct _ _ _ WA i j ltac:(lia) ltac:(lia) N) as D. fold d in D. rewrite Rabs_left in D by lra.
  destruct (s_close i Hi) as (_ & _ & A). destruct (s_close j Hj) as (_ & _ & B). apply (sep_squares (d i) (d j)); auto; [apply d_nonneg|lra].
Qed.
Lemma edge w : ub = Some w -> number (n_mul w w) /\ / 2 ^ 30 <= B2R w <= 2 ^ 40 /\ Rabs (B2R (n_mul w w) - B2R w * B2R w) <= 6 * u * (B2R w * B2R w).
Proof using FU WA.
  intros E. pose proof (number_is w (FU w E)) as I. destruct (wa_edge _ _ _ WA (B2R w)) as (R & _); [rewrite E; reflexivity|].
  set (c := B2R w) in *. pose proof (ipow2_pos 30) as P. pose proof u_small as U. pose proof n0_small as N.
  assert (CC : / 2 ^ 60 <= c * c <= 2 ^ 80).
  { split; [replace (/ 2 ^ 60) with (/ 2 ^ 30 * / 2 ^ 30) by (rewrite inv_mul_pow; auto)|replace (2 ^ 80) with (2 ^ 40 * 2 ^ 40) by (rewrite <- pow_add; auto)]; apply Rmult_le_compat; lra. }
  pose proof (ipow2_pos 60) as P60.
  assert (M : is_num (n_mul w w) (rnd64 (c * c))). { apply is_mul; auto. rewrite Rabs_pos_eq by lra. apply Rle_trans with (2 ^ 80); [lra|apply pow_big; lia]. }
  split; [exists (rnd64 (c * c)); exact M|]. split; [auto|]. rewrite (f_val_B2R _ _ M).
  assert (K : / 2 ^ 300 <= / 2 ^ 60) by (apply inv_pow_le; lia). destruct (norm (c * c) ltac:(lra) ltac:(lra)) as (t & T & ->).
  replace (c * c * (1 + t) - c * c) with (t * (c * c)) by ring. rewrite Rabs_mult, (Rabs_pos_eq (c * c)) by lra. apply Rmult_le_compat_r; lra.
Qed.
Lemma range_kept i : (i < length X)%nat -> in_range s (option_map (fun w : F64 => B2R (n_mul w w)) ub) i <-> in_range d (option_map (fun w : F64 => B2R w) ub) i.
Proof using FX FQ FU WA.
  intros Hi. enough (G : forall o, ub = o -> in_range s (option_map (fun w : F64 => B2R (n_mul w w)) o) i <-> in_range d (option_map (fun w : F64 => B2R w) o) i) by (apply G; auto).
  intros [w|] E; cbn [option_map in_range]; [|tauto]. destruct (edge w E) as (_ & R & C). destruct (s_close i Hi) as (_ & _ & S). pose proof (d_nonneg i) as D0.
  destruct (wa_edge _ _ _ WA (B2R w)) as (_ & F); [rewrite E; reflexivity|].
  specialize (F (rpt_of (get dflt X i)) ltac:(unfold Xr; apply in_map, get_In; auto)). rewrite <- d_get in F by auto. set (c := B2R w) in *. set (cc := B2R (n_mul w w)) in *. pose proof (ipow2_pos 30) as P. pose proof (ipow2_pos 40) as P40.
  unfold in_range. split; intros HL.
  - destruct (Rlt_le_dec (d i) c) as [|Q]; auto. exfalso. rewrite Rabs_pos_eq in F by lra.
    assert (cc < s i); [|lra]. apply Rabs_le_inv in S, C. assert (E8 : u * 8192 = / 2 ^ 40) by (rewrite u64_val; simpl; lra). pose proof u_small as U.
    assert (G : u * 8192 * c < d i - c) by (rewrite E8; lra). assert (c + u * 8192 * c < d i) by lra.
    assert (d i * d i - c * c >= (d i - c) * d i) by nra. assert (H4 : u * 4096 * d i <= d i - c). { assert (u * 4096 * (d i - c) <= 0.5 * (d i - c)) by (apply Rmult_le_compat_r; [lra|rewrite u64_val; simpl; lra]). nra. }
    assert (u * 4096 * d i * d i <= (d i - c) * d i) by (apply Rmult_le_compat_r; lra). assert (c * c <= d i * d i) by nra. assert (0 <= u * (c * c) <= u * (d i * d i)) by nra.
    assert (0 < u * (d i * d i)) by (apply Rmult_lt_0_compat; [lra|nra]). nra.
  - apply (sep_squares (d i) c); auto. rewrite Rabs_left in F by lra. lra.
Qed.
End Select.
