(** * Nearby rain retrieval in float64 *)
From Coq Require Import Reals Lra Lia ZArith Bool Psatz List.
From Flocq Require Import Core Relative IEEE754.BinarySingleNaN.
From Verif Require Import Base Num NumF64 NumList Libm Libm64 Ulp64 KR_model Pastorek_spec NearbyRain_model NearbyRain_spec NearbyRain_proofs HaversineFloat_spec HaversineFloat_proofs HaversineFloat_proofs2 HaversineAcc_proofs FloatErr_spec FloatErr_proofs IdwFloat_proofs StatsErr_proofs RainFloat_spec RainFloat_proofs NearbyFloat_spec.
Import ListNotations.
Local Open Scope R_scope.
Local Arguments bpow : simpl never.

Lemma close_scale e n r x c : 0 <= c -> close e n r x -> close e (n * c) (r * c) (x * c).
Proof. intros C (X & A1 & A2). split; [apply Rmult_le_pos; auto|]. split; [replace (r * c * (1 - e) - n * c) with ((r * (1 - e) - n) * c) by ring|replace (r * c * (1 + e) + n * c) with ((r * (1 + e) + n) * c) by ring]; apply Rmult_le_compat_r; auto. Qed.
Lemma n0_small : n0 <= / 2 ^ 1074.
Proof. rewrite n0_pow. lra. Qed.
Lemma pow_split i j : / 2 ^ (i + j) * 2 ^ j = / 2 ^ i.
Proof. rewrite pow_add. field. split; apply pow_nonzero; lra. Qed.

(** the attenuation as computed *)
Lemma att_num (p c w : F64) vp vc vw : is_num p vp -> is_num c vc -> is_num w vw -> Rabs vp <= 2 ^ 10 -> Rabs vc <= 2 ^ 10 -> Rabs vw <= 2 ^ 10 ->
  exists y, is_num (att p c w) y /\ 0 <= y /\ (rain_attenuation vp vc vw = 0 -> y = 0) /\ (/ 2 ^ 10 <= rain_attenuation vp vc vw -> Rabs (y - rain_attenuation vp vc vw) <= / 2 ^ 30 * rain_attenuation vp vc vw).
Proof.
  intros IP IC IW BP BC BW. pose proof u64_pos as UP. pose proof n0_pos as NP. pose proof n0_tiny as NT.
  assert (B1 : Rabs (vp - vc) <= 2 ^ 11) by (unfold Rminus; eapply Rle_trans; [apply Rabs_triang|]; rewrite Rabs_Ropp; simpl in *; lra).
  assert (I1 : is_num (n_sub p c) (rnd64 (vp - vc))) by (apply is_sub; auto; apply Rle_trans with (1 := B1), pow_big; lia).
  assert (B2 : Rabs (rnd64 (vp - vc)) <= 2 ^ 11) by (rewrite <- rnd64_abs; apply rnd_pow_hi; [lia|auto]).
  assert (B3 : Rabs (rnd64 (vp - vc) - vw) <= 2 ^ 12) by (unfold Rminus at 1; eapply Rle_trans; [apply Rabs_triang|]; rewrite Rabs_Ropp; simpl in *; lra).
  assert (I2 : is_num (n_sub (n_sub p c) w) (rnd64 (rnd64 (vp - vc) - vw))) by (apply is_sub; auto; apply Rle_trans with (1 := B3), pow_big; lia).
  pose proof (rnd64_close (vp - vc)) as C1. pose proof (rnd64_close (rnd64 (vp - vc) - vw)) as C2.
  assert (C3 : Rabs (rnd64 (rnd64 (vp - vc) - vw) - (vp - vc - vw)) <= / 2 ^ 40).
  { replace (rnd64 (rnd64 (vp - vc) - vw) - (vp - vc - vw)) with ((rnd64 (rnd64 (vp - vc) - vw) - (rnd64 (vp - vc) - vw)) + (rnd64 (vp - vc) - (vp - vc))) by ring.
    eapply Rle_trans; [apply Rabs_triang|]. apply Rle_trans with ((u64 * 2 ^ 12 + n0) + (u64 * 2 ^ 11 + n0)); [|rewrite u64_val; simpl in *; lra].
    apply Rplus_le_compat; [apply Rle_trans with (1 := C2)|apply Rle_trans with (1 := C1)]; apply Rplus_le_compat_r, Rmult_le_compat_l; lra. }
  unfold att. cbv zeta. rewrite (num_ltb _ _ _ _ I2 is_zero).
  assert (Z : vp - vc - vw <= 0 -> rnd64 (rnd64 (vp - vc) - vw) <= 0).
  { intros H. rewrite <- rnd64_0. apply rnd64_le. assert (rnd64 (vp - vc) <= vw); [|lra]. rewrite <- (num_generic _ _ IW). apply rnd64_le. lra. }
  set (q := rnd64 (rnd64 (vp - vc) - vw)) in *. unfold rain_attenuation. apply Rabs_le_inv in C3.
  destruct (Rlt_bool_spec q 0).
  - exists 0. split; [apply is_zero|]. split; [lra|]. split; [auto|]. intros G. exfalso. destruct (Rle_dec (vp - vc - vw) 0); [rewrite Rmax_left in G by lra; simpl in G; lra|]. rewrite Rmax_right in G by lra. simpl in *. lra.
  - exists q. split; [exact I2|]. split; [auto|]. split; [intros G; destruct (Rle_dec (vp - vc - vw) 0) as [D|D]; [apply Z in D; lra|rewrite Rmax_right in G by lra; lra]|].
    intros G. destruct (Rle_dec (vp - vc - vw) 0); [rewrite Rmax_left in G by lra; simpl in G; lra|]. rewrite Rmax_right in * by lra. apply Rabs_le.
    assert (/ 2 ^ 40 <= / 2 ^ 30 * (vp - vc - vw)); [|lra]. replace (/ 2 ^ 40) with (/ 2 ^ 30 * / 2 ^ 10) by (rewrite inv_mul_pow; reflexivity). apply Rmult_le_compat_l; [apply Rlt_le, ipow2_pos|auto].
Qed.
Lemma rain_of_inverse a b l x : 0 < a -> 0 < l -> 0 < b -> 0 < x -> a * Rpower (rain_of a b l x) b * l = x.
Proof.
  intros A L B X. unfold rain_of. destruct (Req_EM_T x 0); [lra|]. rewrite Rpower_mult. replace (1 / b * b) with 1 by (field; lra). rewrite Rpower_1; [field; lra|]. apply Rdiv_lt_0_compat; [auto|apply Rmult_lt_0_compat; auto].
Qed.

(** mixing two rates *)
Lemma mix_num (g x y : F64) vg e rx ry vx vy : is_num g vg -> is_num x vx -> is_num y vy -> 0 <= vg <= 1 -> 0 <= rx <= 2 ^ 20 -> 0 <= ry <= 2 ^ 20 -> 0 <= e <= / 100 ->
  Rabs (vx - rx) <= e * rx -> Rabs (vy - ry) <= e * ry ->
  exists v, is_num (n_add (n_mul g x) (n_mul (n_sub one g) y)) v /\ close (e + 5 * u64) (/ 2 ^ 1040) (vg * rx + (1 - vg) * ry) v.
Proof.
  intros IG IX IY BG BX BY BE CX CY. pose proof u64_pos as UP. assert (U6 : u64 <= / 1000000) by (rewrite u64_val; simpl; lra). pose proof n0_pos as NP.
  assert (KX : close e 0 rx vx) by (apply Rabs_le_inv in CX; assert (0 <= e * rx <= / 100 * rx) by (split; [apply Rmult_le_pos; lra|apply Rmult_le_compat_r; lra]); split; lra).
  assert (KY : close e 0 ry vy) by (apply Rabs_le_inv in CY; assert (0 <= e * ry <= / 100 * ry) by (split; [apply Rmult_le_pos; lra|apply Rmult_le_compat_r; lra]); split; lra).
  assert (UX : 0 <= vx <= 2 ^ 21). { destruct KX as (K0 & K1 & K2). split; auto. apply Rle_trans with (1 := K2). assert (rx * (1 + e) <= 2 ^ 20 * (1 + / 100)) by (apply Rmult_le_compat; lra). simpl in *. lra. }
  assert (UY : 0 <= vy <= 2 ^ 21). { destruct KY as (K0 & K1 & K2). split; auto. apply Rle_trans with (1 := K2). assert (ry * (1 + e) <= 2 ^ 20 * (1 + / 100)) by (apply Rmult_le_compat; lra). simpl in *. lra. }
  assert (GX : 0 <= vg * vx <= 2 ^ 21) by (split; [apply Rmult_le_pos; lra|replace (2 ^ 21) with (1 * 2 ^ 21) by ring; apply Rmult_le_compat; lra]).
  assert (I1 : is_num (n_mul g x) (rnd64 (vg * vx))) by (apply is_mul; auto; rewrite Rabs_pos_eq by lra; apply Rle_trans with (2 ^ 21); [lra|apply pow_big; lia]).
  assert (I2 : is_num (n_sub one g) (rnd64 (1 - vg))) by (apply is_sub; [apply is_one|auto|]; rewrite Rabs_pos_eq by lra; apply Rle_trans with (2 ^ 1); [simpl; lra|apply pow_big; lia]).
  set (h := rnd64 (1 - vg)) in *. pose proof (close_rnd (1 - vg) ltac:(lra)) as K2. fold h in K2.
  assert (UH : 0 <= h <= 1) by (split; [apply rnd64_nonneg; lra|rewrite <- rnd64_1; apply rnd64_le; lra]).
  assert (GY : 0 <= h * vy <= 2 ^ 21) by (split; [apply Rmult_le_pos; lra|replace (2 ^ 21) with (1 * 2 ^ 21) by ring; apply Rmult_le_compat; lra]).
  assert (I3 : is_num (n_mul (n_sub one g) y) (rnd64 (h * vy))) by (apply is_mul; auto; rewrite Rabs_pos_eq by lra; apply Rle_trans with (2 ^ 21); [lra|apply pow_big; lia]).
  pose proof (close_rnd (vg * vx) ltac:(lra)) as K1. pose proof (close_rnd (h * vy) ltac:(lra)) as K3.
  set (A1 := rnd64 (vg * vx)) in *. set (A2 := rnd64 (h * vy)) in *.
  assert (UA1 : 0 <= A1 <= 2 ^ 21) by (split; [apply rnd64_nonneg; lra|apply rnd_pow_hi; [lia|lra]]).
  assert (UA2 : 0 <= A2 <= 2 ^ 21) by (split; [apply rnd64_nonneg; lra|apply rnd_pow_hi; [lia|lra]]).
  assert (I4 : is_num (n_add (n_mul g x) (n_mul (n_sub one g) y)) (rnd64 (A1 + A2))) by (apply is_add; auto; rewrite Rabs_pos_eq by lra; apply Rle_trans with (2 ^ 22); [simpl in *; lra|apply pow_big; lia]).
  exists (rnd64 (A1 + A2)). split; [exact I4|]. pose proof (close_rnd (A1 + A2) ltac:(lra)) as K4.
  assert (P1 : 0 <= vg * rx) by (apply Rmult_le_pos; lra). assert (P2 : 0 <= (1 - vg) * ry) by (apply Rmult_le_pos; lra).
  assert (EU : 0 <= e * u64 <= / 100 * u64) by (split; [apply Rmult_le_pos; lra|apply Rmult_le_compat_r; lra]).
  assert (UU : 0 <= u64 * u64 <= / 100 * u64) by (split; [apply Rmult_le_pos; lra|apply Rmult_le_compat_r; lra]).
  (* first product *)
  pose proof (close_scale _ _ _ _ vg ltac:(lra) KX) as J1. rewrite Rmult_0_l, (Rmult_comm rx), (Rmult_comm vx) in J1.
  pose proof (closer_trans e 0 u64 n0 (vg * rx) (vg * vx) A1 P1 ltac:(lra) ltac:(lra) ltac:(lra) ltac:(lra) J1 K1) as M1.
  (* second product *)
  pose proof (close_scale _ _ _ _ (1 - vg) ltac:(lra) KY) as J2. rewrite Rmult_0_l, (Rmult_comm ry), (Rmult_comm vy) in J2.
  pose proof (close_scale _ _ _ _ vy (proj1 UY) K2) as J3. assert (N1 : 0 <= n0 * vy) by (apply Rmult_le_pos; lra).
  pose proof (closer_trans e 0 u64 (n0 * vy) ((1 - vg) * ry) ((1 - vg) * vy) (h * vy) P2 ltac:(lra) ltac:(lra) ltac:(lra) ltac:(lra) J2 J3) as J4.
  assert (S2 : e + 2 * u64 <= 1) by lra.
  apply (close_weaken _ _ (e + 1.5 * u64) (n0 * vy)) in J4; [|auto|lra|lra].
  pose proof (closer_trans (e + 1.5 * u64) (n0 * vy) u64 n0 ((1 - vg) * ry) (h * vy) A2 P2 ltac:(lra) ltac:(lra) ltac:(lra) ltac:(lra) J4 K3) as M2.
  apply (close_weaken _ _ (e + 3 * u64) n0) in M1; [|auto|lra|lra].
  apply (close_weaken _ _ (e + 3 * u64) (2 * (n0 * vy) + n0)) in M2; [|auto|rewrite Rmult_plus_distr_r; rewrite (Rmult_assoc 1.5); lra|lra].
  pose proof (close_add _ _ _ _ _ _ _ P1 P2 M1 M2) as M3.
  pose proof (closer_trans (e + 3 * u64) (n0 + (2 * (n0 * vy) + n0)) u64 n0 (vg * rx + (1 - vg) * ry) (A1 + A2) _ ltac:(lra) ltac:(lra) ltac:(lra) ltac:(lra) ltac:(lra) M3 K4) as M4.
  apply (close_weaken _ _ (e + 5 * u64) (/ 2 ^ 1040)) in M4; [exact M4|lra|rewrite Rmult_plus_distr_r; rewrite (Rmult_assoc 3); lra|].
  replace (2 * (n0 + (2 * (n0 * vy) + n0)) + n0) with (n0 * (4 * vy + 5)) by ring. rewrite n0_pow. change 1074%nat with (1040 + 34)%nat. rewrite <- (pow_split 1040 34).
  apply Rmult_le_compat_l; [apply Rlt_le, ipow2_pos|]. simpl in *. lra.
Qed.

Lemma retrieval_num (L : libm F64) cubic e (pref cmin cmax F : list F64) (len a b waa alpha : F64) thr ap T vl va vb vw vg :
  pow_accurate L e -> 0 <= e <= / 1000 -> length pref = T -> length cmin = T -> length cmax = T -> length F = T ->
  is_num a va -> is_num b vb -> is_num len vl -> is_num waa vw -> is_num alpha vg -> / 2 ^ 60 <= va <= 2 ^ 60 -> / 2 ^ 60 <= vl <= 2 ^ 60 -> / 2 <= vb <= 2 -> Rabs vw <= 2 ^ 10 -> 0 <= vg <= 1 ->
  exists rain, nearby_rainfall_retrival L cubic pref cmin cmax F len None None (Some (CScalar a)) (Some (CScalar b)) ap waa alpha thr = Ok rain /\ length rain = T /\
  forall t, (t < T)%nat -> (~ unfiltered F thr t -> get n_nan rain t = n_nan) /\
  (unfiltered F thr t -> forall p lo hi, is_num (get n_nan pref t) p -> is_num (get n_nan cmin t) lo -> is_num (get n_nan cmax t) hi -> Rabs p <= 2 ^ 10 -> Rabs lo <= 2 ^ 10 -> Rabs hi <= 2 ^ 10 ->
    measurable va vb vl (rain_attenuation p hi vw) -> measurable va vb vl (rain_attenuation p lo vw) ->
    let r_min := rain_of va vb vl (rain_attenuation p hi vw) in let r_max := rain_of va vb vl (rain_attenuation p lo vw) in
    exists v, is_num (get n_nan rain t) v /\ 0 <= v /\ Rabs (v - (vg * r_max + (1 - vg) * r_min)) <= (e + / 2 ^ 28) * (vg * r_max + (1 - vg) * r_min) + / 2 ^ 1040).
Proof.
  intros HL He L1 L2 L3 L4 IA IB IL IW IG RA RL RB BW BG. pose proof u64_pos as UP.
  assert (NZ : n_eqb b (n_ofZ 0) = false). { pose proof (val_eqb _ F64sem b (n_ofZ 0)) as V. change (n_eqb b (n_ofZ 0) = xeqb (f_val b) (f_val (n_ofZ 0))) in V. rewrite V, IB, (num_ofZ 0) by lia. change (Req_bool vb 0 = false). apply Req_bool_false. lra. }
  destruct (retrieval_core L cubic pref cmin cmax F len (CScalar a) (CScalar b) a (n_div one b) waa alpha thr ap T L1 L2 L3 L4 eq_refl (coef_inv_nonzero b NZ)) as (rain & E & LR & G).
  exists rain. split; [exact E|split; [exact LR|]]. intros t Ht. rewrite (G t Ht). split.
  - intros U. destruct thr as [x|]; [|exfalso; apply U; exact I]. unfold unfiltered in U. destruct (n_leb (get n_nan F t) x); [reflexivity|exfalso; apply U; reflexivity].
  - intros U p lo hi IP ILO IHI BP BL BH ML MH. cbv zeta.
    replace (match thr with Some x => n_leb (get n_nan F t) x | None => false end) with false by (destruct thr; [symmetry; exact U|reflexivity]).
    pose proof (range_pos 60 va (proj1 RA)) as PA. pose proof (range_pos 60 vl (proj1 RL)) as PL. pose proof (pow2_pos 20) as P20.
    assert (ONE : forall (c : F64) vc, is_num c vc -> Rabs vc <= 2 ^ 10 -> measurable va vb vl (rain_attenuation p vc vw) ->
      let r := rain_of va vb vl (rain_attenuation p vc vw) in 0 <= r <= 2 ^ 20 /\ exists v, is_num (m_pow L (n_div (att (get n_nan pref t) c waa) (n_mul a len)) (n_div one b)) v /\ Rabs (v - r) <= (e + / 2 ^ 48 + 11 / 10 * / 2 ^ 30 / vb) * r).
    { intros c vc IC BC M. cbv zeta. destruct (att_num _ _ _ _ _ _ IP IC IW BP BC BW) as (y & IY & Y0 & Z & NZ'). set (x := rain_attenuation p vc vw) in *.
      assert (D : 0 <= / 2 ^ 30 <= / 100) by (split; [apply Rlt_le, ipow2_pos|simpl; lra]).
      destruct M as [M|(M & MR)].
      - assert (R0 : rain_of va vb vl x = 0) by (unfold rain_of; destruct (Req_EM_T x 0); [auto|contradiction]). rewrite R0. split; [lra|].
        destruct (power_num L e HL He a b len va vb vl IA IB IL RA RL RB (/ 2 ^ 30) 0 y _ D IY (or_introl (conj eq_refl (Z M)))) as (_ & v & V & C). exists v. auto.
      - pose proof (range_pos 10 x M) as PX. pose proof (rain_of_inverse va vb vl x PA PL ltac:(lra) PX) as INV. split; [pose proof (range_pos 20 _ (proj1 MR)); lra|].
        destruct (power_num L e HL He a b len va vb vl IA IB IL RA RL RB (/ 2 ^ 30) (rain_of va vb vl x) y _ D IY) as (_ & v & V & C); [right; split; [exact MR|rewrite INV; auto]|]. exists v. auto. }
    destruct (ONE _ hi IHI BH ML) as (B1 & v1 & V1 & C1). destruct (ONE _ lo ILO BL MH) as (B2 & v2 & V2 & C2).
    assert (IB2 : 0 < / vb <= 2). { split; [apply Rinv_0_lt_compat; lra|]. replace 2 with (/ / 2) by lra. apply Rinv_le_contravar; lra. }
    assert (EE : 0 <= e + / 2 ^ 48 + 11 / 10 * / 2 ^ 30 / vb <= / 100 /\ e + / 2 ^ 48 + 11 / 10 * / 2 ^ 30 / vb + 5 * u64 <= e + / 2 ^ 28).
    { pose proof (ipow2_pos 30) as P30. assert (0 <= 11 / 10 * / 2 ^ 30 / vb <= 11 / 10 * / 2 ^ 30 * 2) by (unfold Rdiv; split; [repeat apply Rmult_le_pos; lra|apply Rmult_le_compat_l; lra]). rewrite u64_val. simpl in *. split; [split|]; lra. }
    destruct EE as (E1 & E2).
    destruct (mix_num alpha _ _ vg _ _ _ v2 v1 IG V2 V1 BG B2 B1 E1 C2 C1) as (v & V & K). exists v. unfold mixed. split; [exact V|].
    set (r2 := rain_of va vb vl (rain_attenuation p lo vw)) in *. set (r1 := rain_of va vb vl (rain_attenuation p hi vw)) in *.
    assert (P : 0 <= vg * r2 + (1 - vg) * r1) by (apply Rplus_le_le_0_compat; apply Rmult_le_pos; lra).
    apply (close_weaken _ _ (e + / 2 ^ 28) (/ 2 ^ 1040)) in K; [|auto|exact E2|lra]. split; [exact (proj1 K)|]. rewrite (Rmult_comm (e + / 2 ^ 28)). apply close_abs. exact K.
Qed.
