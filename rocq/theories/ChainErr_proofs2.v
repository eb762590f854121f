(** * From attenuation to rain rate, with rounding *)
From Coq Require Import Reals Lra Lia ZArith Bool Psatz List String.
From Flocq Require Import Core Relative IEEE754.BinarySingleNaN.
From Verif Require Import Base Num NumF64 NumList Libm Libm64 RealSpec RealStat Ulp64 Baseline_model Baseline_spec Baseline_proofs Baseline_proofs2 Schleiss_model Schleiss_spec Schleiss_proofs
  KR_model KR_spec KR_proofs Chain_model Chain_spec Chain_proofs
  HaversineFloat_spec HaversineFloat_proofs HaversineFloat_proofs2 HaversineAcc_proofs FloatErr_spec FloatErr_proofs IdwFloat_proofs StatsErr_spec StatsErr_proofs MinMaxFloat_proofs
  RainFloat_spec RainFloat_proofs BaselineErr_proofs Grid64Err_proofs ChainErr_spec ChainErr_proofs.
Import ListNotations.
Local Open Scope R_scope.
Local Arguments bpow : simpl never.
Local Notation length := List.length.

Lemma power_le x y c : 0 < x -> x <= y -> 0 <= c -> Rpower x c <= Rpower y c.
Proof. intros X XY C. apply Rle_Rpower_l; auto. Qed.

Lemma xle_lt x y z : xleb x y = true -> xltb y z = true -> xltb x z = true.
Proof. destruct x as [| |x|], y as [| |y|], z as [| |z|]; simpl; auto; try discriminate. do 3 case Rle_bool_spec || idtac; xcases; auto; try lra; try discriminate. Qed.

Section Law.
Variables (va vb vl : R).
Hypothesis (ra : 0 < va) (rl : 0 < vl) (rb : / 2 <= vb <= 2).
Notation lw := (law va vb vl).
Lemma law_pos y : 0 <= lw y.
Proof using. unfold law. destruct (Rle_dec y 0); [lra|]. apply Rlt_le, Rpower_pos. Qed.
Lemma law_mono y y' : y <= y' -> lw y <= lw y'.
Proof using ra rl rb.
  intros H. unfold law at 1. destruct (Rle_dec y 0); [apply law_pos|]. unfold law. destruct (Rle_dec y' 0); [lra|].
  assert (P : 0 < va * vl) by (apply Rmult_lt_0_compat; auto). apply power_le; [apply Rdiv_lt_0_compat; lra| |apply Rlt_le, Rinv_0_lt_compat; lra].
  unfold Rdiv. apply Rmult_le_compat_r; [apply Rlt_le, Rinv_0_lt_compat; auto|auto].
Qed.
Lemma law_inv y : 0 < y -> 0 < lw y /\ Rpower (lw y) vb = y / (va * vl).
Proof using ra rl rb.
  intros H. unfold law. destruct (Rle_dec y 0); [lra|]. split; [apply Rpower_pos|]. rewrite Rpower_mult, Rinv_l, Rpower_1; [reflexivity| |lra].
  apply Rdiv_lt_0_compat; [auto|apply Rmult_lt_0_compat; auto].
Qed.
End Law.

Section One.
Variables (L : libm F64) (e : R).
Hypothesis acc : pow_accurate L e.
Hypothesis mono : pow_mono L.
Hypothesis e_small : 0 <= e <= / 1000.
Variables (a b l m : F64) (va vb vl vm : R).
Hypothesis (ia : is_num a va) (ib : is_num b vb) (il : is_num l vl) (im : is_num m vm).
Hypothesis (ra : / 2 ^ 60 <= va <= 2 ^ 60) (rl : / 2 ^ 60 <= vl <= 2 ^ 60) (rb : / 2 <= vb <= 2) (rm : / 2 ^ 18 <= vm).
Notation lw := (law va vb vl).
Notation eta := (e + / 2 ^ 48).

(** a rain rate below 2^-20 is below the threshold *)
Lemma tiny_pow (x : F64) y : is_num x y -> 0 < y -> lw y < / 2 ^ 20 ->
  n_ltb (m_pow L (n_div x (n_mul a l)) (n_div one b)) m = true.
Proof using acc mono e_small ia ib il im ra rl rb rm.
  intros X Y S. pose proof (range_pos 60 va (proj1 ra)) as A0. pose proof (range_pos 60 vl (proj1 rl)) as L0.
  destruct (law_inv va vb vl A0 L0 rb y Y) as (LP & LI). set (r := lw y) in *.
  destruct (product_num a l va vl ia il ra rl) as (d1 & D1 & IP). destruct (inverse_num b vb ib rb) as (ep & EP & II).
  pose proof u64_pos as UP. assert (U6 : u64 <= / 1000000) by (rewrite u64_val; simpl; lra). apply Rabs_le_inv in D1.
  assert (P : 0 < va * vl) by (apply Rmult_lt_0_compat; auto).
  (* the comparison number *)
  set (r2 := / 2 ^ 19). assert (HR2 : / 2 ^ 20 <= r2 <= 2 ^ 20) by (unfold r2; simpl; lra).
  pose proof (rpower_range vb rb r2 HR2) as RP. set (q2 := Rpower r2 vb) in *. assert (Q0 : 0 < q2) by (apply (range_pos 40); lra).
  assert (Q300 : / 2 ^ 300 <= q2). { apply Rle_trans with (/ 2 ^ 40); [apply ipow_small; lia|lra]. }
  destruct (norm q2 Q0 Q300) as (d2 & D2 & E2).
  assert (QB : Rabs q2 <= big). { rewrite Rabs_pos_eq by lra. apply Rle_trans with (2 ^ 40); [lra|apply pow_big; lia]. }
  pose proof (is_rnd (f_of_xr (XFin q2)) q2 (f_of_xr_val (XFin q2)) QB) as I2.
  destruct (power_perturbed r2 vb d2 ep HR2 rb ltac:(lra) EP) as (t & ET & TT).
  assert (IB : 0 < / vb <= 2). { split; [apply Rinv_0_lt_compat; lra|]. replace 2 with (/ / 2) by lra. apply Rinv_le_contravar; lra. }
  assert (T2 : Rabs t <= 24 * u64). { apply Rle_trans with (1 := TT). unfold Rdiv. rewrite Rmult_assoc. assert (Rabs d2 * / vb <= u64 * 2) by (apply Rmult_le_compat; [apply Rabs_pos|lra|auto|lra]). lra. }
  apply Rabs_le_inv in T2. fold q2 in ET. rewrite <- E2 in ET.
  assert (Q2P : 0 < rnd64 q2) by (rewrite E2; apply Rabs_le_inv in D2; apply Rmult_lt_0_compat; lra).
  assert (R2P : 0 < r2) by (unfold r2; apply ipow2_pos).
  assert (RG : / 2 ^ 300 <= Rpower (rnd64 q2) ((1 + ep) / vb) <= 2 ^ 300).
  { rewrite ET. split.
    - apply Rle_trans with (/ 2 ^ 20); [apply ipow_small; lia|]. unfold r2. simpl. lra.
    - apply Rle_trans with 1; [unfold r2; simpl; lra|]. apply pow_R1_Rle. lra. }
  destruct (pa_pos L e acc _ _ _ _ I2 II Q2P RG) as (v & V & C). rewrite ET in C. apply Rabs_le_inv in C.
  assert (VS : v < vm).
  { assert (v <= r2 * (1 + t) * (1 + e)) by lra. assert (r2 * (1 + t) * (1 + e) < / 2 ^ 18); [|lra].
    apply Rle_lt_trans with (r2 * 1.001 * 1.001). { apply Rmult_le_compat; [apply Rmult_le_pos; lra|lra|apply Rmult_le_compat_l; lra|lra]. } unfold r2. simpl. lra. }
  (* the quotient is below *)
  assert (PD : 0 < va * vl * (1 + d1)) by (apply Rmult_lt_0_compat; lra).
  set (z := y / (va * vl * (1 + d1))). assert (Z0 : 0 < z) by (unfold z; apply Rdiv_lt_0_compat; auto).
  assert (RQ : Rpower r vb <= q2 * 0.8).
  { apply Rle_trans with (Rpower (/ 2 ^ 20) vb); [apply power_le; lra|]. replace (/ 2 ^ 20) with (r2 * / 2) by (unfold r2; simpl; lra).
    rewrite <- Rpower_mult_distr by lra. fold q2. apply Rmult_le_compat_l; [lra|].
    apply Rle_trans with (Rpower (/ 2) (/ 2)).
    - unfold Rpower. destruct (Req_dec vb (/ 2)) as [->|N]; [lra|]. apply Rlt_le, exp_increasing. rewrite ln_Rinv by lra. assert (0 < ln 2) by (rewrite <- ln_1; apply ln_increasing; lra). nra.
    - apply Rsqr_incr_0_var; [|lra]. unfold Rsqr. rewrite <- Rpower_plus. replace (/ 2 + / 2) with 1 by lra. rewrite Rpower_1 by lra. lra. }
  assert (ZQ : z <= q2).
  { unfold z. replace (y / (va * vl * (1 + d1))) with (y / (va * vl) * / (1 + d1)) by (field; split; lra). rewrite <- LI.
    apply Rle_trans with (q2 * 0.8 * 1.1); [|nra]. apply Rmult_le_compat; [apply Rlt_le, Rpower_pos|apply Rlt_le, Rinv_0_lt_compat; lra|auto|].
    replace 1.1 with (/ (/ 1.1)) by lra. apply Rinv_le_contravar; lra. }
  assert (IZ : is_num (n_div x (n_mul a l)) (rnd64 z)). { apply is_div; auto; [lra|]. fold z. rewrite Rabs_pos_eq by lra. rewrite Rabs_pos_eq in QB by lra. lra. }
  assert (LE : n_leb (m_pow L (n_div x (n_mul a l)) (n_div one b)) (m_pow L (f_of_xr (XFin q2)) (n_div one b)) = true).
  { apply mono.
    - rewrite (num_leb _ _ 0 (rnd64 z)); [apply Rle_bool_true, rnd64_nonneg; lra|apply (num_ofZ 0); lia|exact IZ].
    - rewrite (num_leb _ _ _ _ IZ I2). apply Rle_bool_true, rnd64_le. exact ZQ.
    - rewrite (num_leb _ _ 0 _ (num_ofZ 0 ltac:(lia)) II). apply Rle_bool_true. apply Rlt_le, Rdiv_lt_0_compat; [apply Rabs_le_inv in EP; lra|lra]. }
  assert (LT : n_ltb (m_pow L (f_of_xr (XFin q2)) (n_div one b)) m = true) by (rewrite (num_ltb _ _ _ _ V im); apply Rlt_bool_true; auto).
  rewrite (val_ltb _ F64sem) in *. rewrite (val_leb _ F64sem) in LE. exact (xle_lt _ _ _ LE LT).
Qed.

Lemma rate_law (x : F64) y : is_num x y -> y <= va * Rpower (2 ^ 20) vb * vl -> retrieved (eta * lw y) vm (lw y) (rate L (n_mul a l) (n_div one b) m x).
Proof using acc mono e_small ia ib il im ra rl rb rm.
  intros X Y. pose proof (range_pos 60 va (proj1 ra)) as A0. pose proof (range_pos 60 vl (proj1 rl)) as L0. pose proof (ipow2_pos 18) as P18.
  assert (NN : n_isnan x = false). { pose proof (val_isnan _ F64sem x) as V. change (n_isnan x = xisnan (f_val x)) in V. rewrite V, X. reflexivity. }
  assert (E0 : err e vb 0 (lw y) = eta * lw y) by (unfold err, Rdiv; ring).
  destruct (Rle_lt_dec y 0) as [N|N].
  - assert (LZ : lw y = 0) by (unfold law; destruct (Rle_dec y 0); lra). rewrite LZ, Rmult_0_r. destruct (Req_dec y 0) as [E|E].
    + assert (Z0 : err e vb 0 0 = 0) by (unfold err, Rdiv; ring). rewrite <- Z0 at 1.
      apply (rate_close L e acc e_small a b l m va vb vl vm); auto; try lra. exists y. split; auto.
    + unfold rate. rewrite NN, (num_leb _ _ 0 y is_zero X), Rle_bool_false by lra. cbv zeta. rewrite (num_ltb _ _ 0 vm is_zero im), Rlt_bool_true by lra.
      exists 0. split; [apply is_zero|]. split; [auto|]. split; [intros; rewrite Rminus_0_r, Rabs_R0; lra|auto].
  - destruct (law_inv va vb vl A0 L0 rb y N) as (LP & LI). destruct (Rle_lt_dec (/ 2 ^ 20) (lw y)) as [B|B].
    + rewrite <- E0. apply (rate_close L e acc e_small a b l m va vb vl vm); auto; try lra. exists y. split; auto. right. split.
      * split; [exact B|]. unfold law. destruct (Rle_dec y 0); [lra|]. assert (PV : 0 < va * vl) by (apply Rmult_lt_0_compat; auto).
        rewrite <- (Rpower_1 (2 ^ 20)) by apply pow2_pos. replace 1 with (vb * / vb) by (field; lra). rewrite <- Rpower_mult. apply power_le; [apply Rdiv_lt_0_compat; auto| |apply Rlt_le, Rinv_0_lt_compat; lra].
        apply Rmult_le_reg_r with (va * vl); auto. unfold Rdiv. rewrite Rmult_assoc, Rinv_l, Rmult_1_r by lra. lra.
      * rewrite LI. replace (y - va * (y / (va * vl)) * vl) with 0 by (field; lra). rewrite Rabs_R0, Rmult_0_l. lra.
    + unfold rate. rewrite NN, (num_leb _ _ 0 y is_zero X), Rle_bool_true by lra. cbv zeta. rewrite (tiny_pow x y X N B).
      exists 0. split; [apply is_zero|]. split; [auto|]. pose proof (ipow2_pos 48). assert (0 <= eta * lw y) by (apply Rmult_le_pos; lra).
      split; [|auto]. intros Q. assert (/ 2 ^ 20 <= / 2 ^ 18) by (apply ipow_small; lia). lra.
Qed.

Lemma between_of x A y E : retrieved (eta * lw y) vm (lw y) x -> Rabs (y - A) <= E ->
  rain_between ((1 - eta) * lw (A - E)) ((1 + eta) * lw (A + E)) vm x.
Proof using e_small ra rl rb.
  intros (v & V & C1 & C2 & C3) D. apply Rabs_le_inv in D. pose proof (range_pos 60 va (proj1 ra)) as A0. pose proof (range_pos 60 vl (proj1 rl)) as L0.
  pose proof (law_mono va vb vl A0 L0 rb (A - E) y ltac:(lra)) as M1. pose proof (law_mono va vb vl A0 L0 rb y (A + E) ltac:(lra)) as M2.
  pose proof (law_pos va vb vl y) as P0. pose proof (law_pos va vb vl (A - E)) as P1. pose proof (law_pos va vb vl (A + E)) as P2.
  assert (H48 : 0 < / 2 ^ 48 <= / 1000) by (split; [apply ipow2_pos|simpl; lra]).
  assert (K1 : (1 - eta) * lw (A - E) <= lw y - eta * lw y). { replace (lw y - eta * lw y) with ((1 - eta) * lw y) by ring. apply Rmult_le_compat_l; lra. }
  assert (K2 : lw y + eta * lw y <= (1 + eta) * lw (A + E)). { replace (lw y + eta * lw y) with ((1 + eta) * lw y) by ring. apply Rmult_le_compat_l; lra. }
  assert (K0 : 0 <= (1 - eta) * lw (A - E)) by (apply Rmult_le_pos; lra). assert (K3 : 0 <= (1 + eta) * lw (A + E)) by (apply Rmult_le_pos; lra).
  exists v. split; [exact V|]. split; [|split; [|split]].
  - destruct C1 as [->|C]; [lra|]. apply Rabs_le_inv in C. lra.
  - destruct C1 as [C|C]; [left; auto|right]. apply Rabs_le_inv in C. lra.
  - intros H. specialize (C2 ltac:(lra)). apply Rabs_le_inv in C2. lra.
  - intros H. apply C3. lra.
Qed.
End One.

(** ** the whole chain *)
Theorem chain_close (L : libm F64) cubic e clipped trsl wet T n M fm dt tau top vdt vtau (k : kr_args F64) a b va vb vl vm B W :
  pow_accurate L e -> pow_mono L -> 0 <= e <= / 1000 ->
  (1 <= n)%nat -> are_nums trsl T -> length wet = length trsl -> INR n <= 2 ^ 20 -> INR n * INR (length trsl) <= 2 ^ 30 ->
  1 <= M <= 2 ^ 100 -> (forall v, In v T -> Rabs v <= M) ->
  is_num fm top -> is_num dt vdt -> is_num tau vtau -> 0 <= top <= M -> / 2 ^ 60 <= vdt <= 2 ^ 60 -> / 2 ^ 60 <= vtau <= 2 ^ 60 -> 3 * vdt / vtau <= 1 ->
  kr_f k = None -> kr_pol k = None -> kr_a k = Some (CScalar a) -> kr_b k = Some (CScalar b) ->
  is_num a va -> is_num b vb -> is_num (kr_len k) vl -> is_num (kr_min k) vm ->
  / 2 ^ 60 <= va <= 2 ^ 60 -> / 2 <= vb <= 2 -> / 2 ^ 60 <= vl <= 2 ^ 60 -> / 2 ^ 18 <= vm -> 5 * M <= va * Rpower (2 ^ 20) vb * vl ->
  exact_baseline T wet n B -> exact_waa T B wet top (3 * vdt / vtau) W ->
  exists R, chain L cubic clipped trsl wet n fm dt tau k = Ok R /\ length R = length trsl /\ forall i, (i < length trsl)%nat ->
    let A := rget T i - rget B i - rget W i in
    let d := INR (i + 1) * (INR n * M / 2 ^ 47) in
    rain_between ((1 - (e + / 2 ^ 48)) * law va vb vl (A - d)) ((1 + (e + / 2 ^ 48)) * law va vb vl (A + d)) vm (get n_nan R i).
Proof.
  intros PA PM E N1 HT LW N20 N30 M1 BT im id it Htop Hdt Htau Hq K1 K2 K3 K4 ia ib il ir ra rb rl rm top5 EB EW.
  assert (Pb : positive b). { unfold positive. rewrite (num_ltb (n_ofZ 0) b 0 vb (num_ofZ 0 ltac:(lia)) ib). apply Rlt_bool_true. lra. }
  pose proof (ipow2_pos 60) as P60.
  assert (Ht : n_eqb tau (n_ofZ 0) = true -> forall i, (1 <= i < length trsl)%nat -> ~ flag_is_one wet i).
  { intros Z. exfalso. rewrite (val_eqb _ F64sem) in Z. change (val F64sem tau) with (f_val tau) in Z. change (val F64sem (n_ofZ 0)) with (f_val (n_ofZ (n := F64) 0)) in Z.
    rewrite it, is_zero in Z. apply xeqb_true in Z as [Z _]. injection Z as Z. lra. }
  destruct (chain_run F64sem L cubic clipped trsl wet n fm dt tau k a b K1 K2 K3 K4 Pb N1 LW Ht) as (bl & w & R & Eb & LB & _ & _ & W0 & WS & ER & LR & HR).
  exists R. split; [exact ER|]. split; [exact LR|]. intros i Hi A d. rewrite (HR i Hi).
  destruct (total_close trsl wet T n M N1 HT LW N20 N30 M1 BT bl B Eb EB fm dt tau top vdt vtau w W im id it Htop Hdt Htau Hq W0 WS EW i Hi) as (v & V & C & U).
  fold A in C. assert (ED : INR (i + 1) * (64 * (INR n * (u64 * M))) = d). { unfold d. assert (U47 : 64 * u64 = / 2 ^ 47) by (rewrite u64_val; simpl; lra). unfold Rdiv. rewrite <- U47. ring. }
  assert (C' : Rabs (v - A) <= d) by (rewrite <- ED; exact C). clear C. rename C' into C.
  assert (Y : forall x y, is_num x y -> y <= 5 * M -> retrieved ((e + / 2 ^ 48) * law va vb vl y) vm (law va vb vl y) (rt L a b k x)).
  { intros x y X YM. unfold rt. apply (rate_law L e PA PM E a b (kr_len k) (kr_min k) va vb vl vm); auto. lra. }
  apply (between_of e E va vb vl vm ra rl rb _ A v d); [|exact C].
  unfold cl. destruct clipped; [|apply Y; auto]. rewrite (num_ltb _ _ v 0 V is_zero). case Rlt_bool_spec; intros H; [|apply Y; auto].
  assert (Z : law va vb vl v = law va vb vl 0) by (unfold law; destruct (Rle_dec v 0), (Rle_dec 0 0); lra). rewrite Z. apply Y; [apply is_zero|lra].
Qed.
