(** * The wet/dry rates and the Matthews correlation in binary64 *)
From Coq Require Import List ZArith Bool Lia Reals Lra Psatz.
From Flocq Require Import Core.
From Verif Require Import Base Num NumF64 Ulp64 NumList NpOps RealSpec RealStat Libm Stats_model Stats_spec Stats_proofs Stats_proofs2.
Import ListNotations.
Local Open Scope nat_scope.

Lemma f_rnd_in_unit x : (0 <= x <= 1)%R -> f_rnd (XFin x) = XFin (rnd64 x) /\ (0 <= rnd64 x <= 1)%R.
Proof.
  intros H. assert (B : (0 <= rnd64 x <= 1)%R).
  { assert (rnd64 0 <= rnd64 x)%R by (apply rnd64_le; lra). assert (rnd64 x <= rnd64 1)%R by (apply rnd64_le; lra). rewrite rnd64_0, rnd64_1 in *. lra. }
  split; auto. unfold f_rnd. rewrite Rlt_bool_true; auto. rewrite Rabs_pos_eq by lra. apply Rle_lt_trans with 1%R; [lra|]. change 1%R with (bpow radix2 0). apply bpow_lt. lia.
Qed.
Lemma INR_ratio a n : a <= n -> n <> 0 -> (0 <= INR a / INR n <= 1)%R.
Proof.
  intros H N. assert (0 < INR n)%R by (apply lt_0_INR; lia). assert (INR a <= INR n)%R by (apply le_INR; auto). pose proof (pos_INR a). split.
  - apply Rmult_le_pos; [lra|]. left. apply Rinv_0_lt_compat. auto.
  - apply (Rmult_le_reg_r (INR n)); auto. unfold Rdiv. rewrite Rmult_assoc, Rinv_l; lra.
Qed.
Lemma ratio_F64 a n : a <= n -> n <> 0 -> (Z.of_nat n <= 2 ^ 53)%Z -> f_val (ratio a n : F64) = XFin (rnd64 (INR a / INR n)).
Proof.
  intros H N B. change (f_val (ratio a n : F64)) with (val F64sem (ratio a n : F64)). unfold ratio.
  assert (En : val F64sem (n_ofnat n : F64) = XFin (INR n)) by (apply (ofnat_val F64sem); auto).
  assert (Ea : val F64sem (n_ofnat a : F64) = XFin (INR a)) by (apply (ofnat_val F64sem); lia).
  assert (NZ : INR n <> 0%R) by (apply not_0_INR; auto).
  rewrite (val_div _ F64sem); [|rewrite En; intros Q; injection Q as Q; contradiction]. rewrite En, Ea. cbn [xdiv]. rewrite Req_bool_false by auto.
  apply f_rnd_in_unit. apply INR_ratio; auto.
Qed.
Lemma ratio_sum a b n : a + b = n -> n <> 0 -> (Z.of_nat n <= 2 ^ 53)%Z -> n_eqb (n_add (ratio a n : F64) (ratio b n)) (n_ofZ 1) = true.
Proof.
  intros H N B. rewrite (val_eqb _ F64sem), (val_add _ F64sem), (val_ofZ _ F64sem) by (simpl; lia).
  change (val F64sem (ratio a n : F64)) with (f_val (ratio a n : F64)). change (val F64sem (ratio b n : F64)) with (f_val (ratio b n : F64)).
  rewrite !ratio_F64 by (auto; lia). cbn [xadd]. change (rnd F64sem) with f_rnd.
  assert (S1 : (INR a / INR n + INR b / INR n = 1)%R).
  { rewrite <- H, plus_INR. field. rewrite <- plus_INR. apply not_0_INR. lia. }
  pose proof (INR_ratio a n ltac:(lia) N) as Ra. pose proof (INR_ratio b n ltac:(lia) N) as Rb.
  assert (C := complement_one _ _ (proj1 Ra) (proj1 Rb) S1). unfold f_rnd. rewrite C. rewrite Rlt_bool_true.
  - cbn. apply Req_bool_true. reflexivity.
  - rewrite Rabs_R1. change 1%R with (bpow radix2 0). apply bpow_lt. lia.
Qed.
Lemma ratio_range a n : a <= n -> n <> 0 -> (Z.of_nat n <= 2 ^ 53)%Z ->
  n_leb (n_ofZ 0) (ratio a n : F64) = true /\ n_leb (ratio a n : F64) (n_ofZ 1) = true /\
  (n_eqb (ratio a n : F64) (n_ofZ 0) = true <-> a = 0) /\ (n_eqb (ratio a n : F64) (n_ofZ 1) = true <-> a = n).
Proof.
  intros H N B. rewrite !(val_leb _ F64sem), !(val_eqb _ F64sem), !(val_0 F64sem), (val_ofZ _ F64sem) by (simpl; lia).
  change (val F64sem (ratio a n : F64)) with (f_val (ratio a n : F64)). rewrite ratio_F64 by auto.
  pose proof (INR_ratio a n H N) as R1. destruct (f_rnd_in_unit _ R1) as [_ R2].
  assert (PN : (0 < INR n)%R) by (apply lt_0_INR; lia). assert (BN : (INR n <= IZR (2 ^ 53))%R) by (rewrite INR_IZR_INZ; apply IZR_le; auto).
  assert (P53 : (0 < IZR (2 ^ 53))%R) by (apply IZR_lt; lia).
  assert (IU : (u64 <= / INR n)%R) by (rewrite u64_val; apply Rinv_le; auto).
  split; [apply xleb_fin; lra|]. split; [apply xleb_fin; lra|]. cbn [xeqb]. split; split; intros K.
  - destruct (Req_bool_spec (rnd64 (INR a / INR n)) 0) as [Z|]; [|discriminate]. destruct (Nat.eq_dec a 0) as [|Na]; auto. exfalso.
    assert (1 <= INR a)%R by (change 1%R with (INR 1); apply le_INR; lia).
    assert (u64 <= INR a / INR n)%R. { unfold Rdiv. assert (0 < / INR n)%R by (apply Rinv_0_lt_compat; auto). nra. }
    assert (Q : (rnd64 u64 <= rnd64 (INR a / INR n))%R) by (apply rnd64_le; auto).
    rewrite (rnd64_generic u64) in Q; [pose proof u64_pos; lra|]. unfold u64. apply generic_format_bpow. vm_compute; discriminate.
  - subst a. apply Req_bool_true. unfold Rdiv. cbn [INR]. rewrite Rmult_0_l. apply rnd64_0.
  - destruct (Req_bool_spec (rnd64 (INR a / INR n)) 1) as [Z|]; [|discriminate]. destruct (Nat.eq_dec a n) as [|Na]; auto. exfalso.
    assert (Q0 : (INR (a + 1) <= INR n)%R) by (apply le_INR; lia). rewrite plus_INR in Q0. change (INR 1) with 1%R in Q0.
    assert (INR a / INR n <= 1 - u64)%R. { unfold Rdiv. assert (0 < / INR n)%R by (apply Rinv_0_lt_compat; auto). assert (INR n * / INR n = 1)%R by (apply Rinv_r; lra). nra. }
    assert (Q : (rnd64 (INR a / INR n) <= rnd64 (1 - u64))%R) by (apply rnd64_le; auto).
    rewrite (rnd64_generic (1 - u64)) in Q; [pose proof u64_pos; lra|].
    replace (1 - u64)%R with (IZR (2 ^ 53 - 1) * bpow radix2 (-53))%R; [apply grid_format; lia|]. rewrite minus_IZR. change (bpow radix2 (-53)) with u64. rewrite u64_val. field. lra.
  - subst a. apply Req_bool_true. unfold Rdiv. rewrite Rinv_r by lra. apply rnd64_1.
Qed.

(** what is said of a rate: a count [a] out of [n], and the rate of the rest *)
Lemma wd_rates_float (r p : list F64) n : length r = n -> length p = n -> (Z.of_nat n <= 2 ^ 53)%Z ->
  exists w, calc_wet_dry_performance_metrics (mk_arr [n] r) (mk_arr [n] p) = Ok w /\
  (N_wet_reference w <> 0 ->
     n_eqb (n_add (wd_true_wet_rate w) (wd_missed_wet_rate w)) (n_ofZ 1) = true /\
     n_leb (n_ofZ 0) (wd_true_wet_rate w) = true /\ n_leb (wd_true_wet_rate w) (n_ofZ 1) = true /\
     n_leb (n_ofZ 0) (wd_missed_wet_rate w) = true /\ n_leb (wd_missed_wet_rate w) (n_ofZ 1) = true /\
     (n_eqb (wd_true_wet_rate w) (n_ofZ 1) = true <-> N_missed_wet w = 0) /\
     (n_eqb (wd_missed_wet_rate w) (n_ofZ 1) = true <-> N_true_wet w = 0)) /\
  (N_dry_reference w <> 0 ->
     n_eqb (n_add (wd_true_dry_rate w) (wd_false_wet_rate w)) (n_ofZ 1) = true /\
     n_leb (n_ofZ 0) (wd_true_dry_rate w) = true /\ n_leb (wd_true_dry_rate w) (n_ofZ 1) = true /\
     n_leb (n_ofZ 0) (wd_false_wet_rate w) = true /\ n_leb (wd_false_wet_rate w) (n_ofZ 1) = true /\
     (n_eqb (wd_true_dry_rate w) (n_ofZ 1) = true <-> N_false_wet w = 0) /\
     (n_eqb (wd_false_wet_rate w) (n_ofZ 1) = true <-> N_true_dry w = 0)).
Proof.
  intros Hr Hp Hn. assert (E : length r = length p) by congruence. rewrite (wd_eval r p n [] E).
  eexists. split; [reflexivity|].
  cbn [N_wet_reference N_dry_reference wd_true_wet_rate wd_missed_wet_rate wd_true_dry_rate wd_false_wet_rate N_true_wet N_true_dry N_missed_wet N_false_wet].
  pose proof (marginals zero (valid_pairs r p)) as (M1 & M2 & _ & _ & M5).
  assert (HL : length (valid_pairs r p) <= n) by (pose proof (nan_count r p E); lia).
  revert M1 M2 M5. generalize (count (fun p0 => wet zero (fst p0)) (valid_pairs r p)) as nw. generalize (count (fun p0 => dry zero (fst p0)) (valid_pairs r p)) as nd.
  generalize (count (true_wet zero) (valid_pairs r p)) as tp. generalize (count (true_dry zero) (valid_pairs r p)) as tn.
  generalize (count (false_wet zero) (valid_pairs r p)) as fp. generalize (count (missed_wet zero) (valid_pairs r p)) as fn.
  intros fn fp tn tp nd nw M1 M2 M5.
  split; intros N.
  - destruct (ratio_range tp nw) as (A1 & A2 & _ & A4); try lia. destruct (ratio_range fn nw) as (B1 & B2 & _ & B4); try lia.
    split; [apply ratio_sum; auto; lia|]. split; [exact A1|]. split; [exact A2|]. split; [exact B1|]. split; [exact B2|]. rewrite A4, B4. lia.
  - destruct (ratio_range tn nd) as (A1 & A2 & _ & A4); try lia. destruct (ratio_range fp nd) as (B1 & B2 & _ & B4); try lia.
    split; [apply ratio_sum; auto; lia|]. split; [exact A1|]. split; [exact A2|]. split; [exact B1|]. split; [exact B2|]. rewrite A4, B4. lia.
Qed.

(** ** Matthews correlation: within 2^-49 of the exact value *)
Lemma f_rnd_rel x v : f_rnd (XFin x) = XFin v -> (bpow radix2 (-1022) <= Rabs x)%R -> exists d, near 1 d /\ v = (x * d)%R.
Proof.
  intros E H. apply f_rnd_finite in E. destruct (rnd64_rel x H) as (d & Hd & E'). exists (1 + d)%R. split; [apply near_1; auto|congruence].
Qed.
Lemma big_enough x : (1 <= Rabs x)%R -> (bpow radix2 (-1022) <= Rabs x)%R.
Proof. intros H. apply Rle_trans with 1%R; auto. change 1%R with (bpow radix2 0). apply bpow_le. lia. Qed.
Lemma sqrt_rel k : k <> 0 -> (Z.of_nat k <= 2 ^ 26)%Z -> exists s d, val F64sem (n_sqrt (n_ofnat k) : F64) = XFin s /\ near 1 d /\ s = (sqrt (INR k) * d)%R /\ (1 <= s <= IZR (2 ^ 13))%R.
Proof.
  intros N B. destruct (sqrt_ofnat_fin F64sem k B) as (s & E & Hs). destruct (Nat.eqb_spec k 0); [contradiction|].
  assert (K : (1 <= INR k)%R) by (change 1%R with (INR 1); apply le_INR; lia).
  assert (E' := E). rewrite (val_sqrt _ F64sem) in E'. rewrite (ofnat_val F64sem) in E' by lia. cbn [xsqrt] in E'. rewrite Rlt_bool_false in E' by lra.
  assert (Q : (1 <= sqrt (INR k))%R) by (rewrite <- sqrt_1; apply sqrt_le_1; lra).
  destruct (f_rnd_rel _ _ E') as (d & Hd & Es); [apply big_enough; rewrite Rabs_pos_eq; lra|]. exists s, d. auto.
Qed.
Lemma mul_rel (x y : F64) a b B1 B2 : val F64sem x = XFin a -> val F64sem y = XFin b -> (1 <= a <= IZR B1)%R -> (1 <= b <= IZR B2)%R ->
  (B1 * B2 <= 2 ^ 53)%Z -> (0 <= B1)%Z -> (0 <= B2)%Z ->
  exists s d, val F64sem (n_mul x y) = XFin s /\ near 1 d /\ s = (a * b * d)%R /\ (1 <= s <= IZR (B1 * B2))%R.
Proof.
  intros Ex Ey Ha Hb HB HB1 HB2.
  destruct (mul_zero_iff F64sem x y a b B1 B2 HB HB1 HB2 Ex Ey (or_intror Ha) (or_intror Hb)) as (s & E & [[_ Z]|[R _]]); [destruct Z; lra|].
  assert (E' := E). rewrite (val_mul _ F64sem), Ex, Ey in E'. cbn [xmul] in E'.
  destruct (f_rnd_rel _ _ E') as (d & Hd & Es); [apply big_enough; rewrite Rabs_pos_eq; nra|]. exists s, d. auto.
Qed.
Lemma near_quotient q d : near 1 q -> near 7 d -> (Rabs (q / d - 1) <= 16 * u64)%R.
Proof.
  intros Hq Hd. pose proof (near_pos _ _ Hd) as Pd. unfold near in *. rewrite !pow_1 in Hq. pose proof u64_pos. pose proof u64_small. set (u := u64) in *. clearbody u.
  assert (Lo : (1 - 7 * u <= (1 - u) ^ 7)%R) by (simpl; nra).
  assert (Hi : ((1 + u) ^ 7 * (1 - 7 * u) <= 1)%R).
  { assert (A : ((1 + u) * (1 - u) <= 1)%R) by nra. assert (B : (1 - 7 * u <= (1 - u) ^ 7)%R) by auto.
    assert (P : (0 <= (1 + u) ^ 7)%R) by (apply pow_le; lra).
    apply Rle_trans with ((1 + u) ^ 7 * (1 - u) ^ 7)%R; [apply Rmult_le_compat_l; auto|]. rewrite <- Rpow_mult_distr.
    apply Rle_trans with (1 ^ 7)%R; [apply pow_incr; split; [nra|exact A]|rewrite pow1; lra]. }
  assert (Dl : (1 - 7 * u <= d)%R) by lra. assert (Du : (d * (1 - 7 * u) <= 1)%R).
  { apply Rle_trans with ((1 + u) ^ 7 * (1 - 7 * u))%R; [apply Rmult_le_compat_r; lra|auto]. }
  assert (I : (d * / d = 1)%R) by (apply Rinv_r; lra). assert (J : (0 < / d)%R) by (apply Rinv_0_lt_compat; auto).
  assert (K1 : (/ d * (1 - 7 * u) <= 1)%R) by (rewrite <- I; rewrite (Rmult_comm d); apply Rmult_le_compat_l; lra).
  assert (K2 : (1 - 7 * u <= / d)%R). { apply (Rmult_le_reg_l d); auto. rewrite I. lra. }
  unfold Rdiv. set (e := (/ d)%R) in *. clearbody e. apply Rabs_le. split.
  - assert ((1 - u) * (1 - 7 * u) <= q * e)%R by (apply Rmult_le_compat; lra). nra.
  - assert (E1 : (e <= 1 + 8 * u)%R) by nra. assert (q * e <= (1 + u) * (1 + 8 * u))%R by (apply Rmult_le_compat; lra). nra.
Qed.
Lemma matthews_close tp tn fp fn : (Z.of_nat (tp + tn + fp + fn) <= 2 ^ 26)%Z -> tp + fp <> 0 -> tp + fn <> 0 -> tn + fp <> 0 -> tn + fn <> 0 ->
  exists m, f_val (matthews tp tn fp fn : F64) = XFin m /\ (Rabs (m - mcc_real (INR tp) (INR tn) (INR fp) (INR fn)) <= 16 * u64)%R.
Proof.
  intros H N1 N2 N3 N4. destruct (matthews_float F64sem tp tn fp fn H) as [FI FN].
  destruct (sqrt_rel (tp + fp)) as (sa & da & Ea & Da & Sa & Ba); try lia. destruct (sqrt_rel (tp + fn)) as (sb & db & Eb & Db & Sb & Bb); try lia.
  destruct (sqrt_rel (tn + fp)) as (sc & dc & Ec & Dc & Sc & Bc); try lia. destruct (sqrt_rel (tn + fn)) as (sd & dd & Ed & Dd & Sd & Bd); try lia.
  unfold matthews in *. cbv zeta in *. change f_val with (val F64sem).
  set (a := n_sqrt (n_ofnat (tp + fp)) : F64) in *. set (b := n_sqrt (n_ofnat (tp + fn)) : F64) in *.
  set (c := n_sqrt (n_ofnat (tn + fp)) : F64) in *. set (d := n_sqrt (n_ofnat (tn + fn)) : F64) in *.
  set (z := (Z.of_nat tp * Z.of_nat tn - Z.of_nat fp * Z.of_nat fn)%Z) in *.
  assert (Hz : (Z.abs z <= 2 ^ 53)%Z) by (unfold z; nia).
  destruct (mul_rel a b sa sb (2 ^ 13) (2 ^ 13)) as (s1 & d1 & E1 & D1 & S1 & B1); auto; try lia.
  destruct (mul_rel (n_mul a b) c s1 sc (2 ^ 13 * 2 ^ 13) (2 ^ 13)) as (s2 & d2 & E2 & D2 & S2 & B2); auto; try lia.
  destruct (mul_rel (n_mul (n_mul a b) c) d s2 sd (2 ^ 13 * 2 ^ 13 * 2 ^ 13) (2 ^ 13)) as (s3 & d3 & E3 & D3 & S3 & B3); auto; try lia.
  set (P := n_mul (n_mul (n_mul a b) c) d) in *.
  assert (NZ : val F64sem P <> XFin 0) by (rewrite E3; intros Q; injection Q as Q; lra).
  assert (EV : val F64sem (n_div (n_ofZ z) P) = f_rnd (XFin (IZR z / s3))).
  { rewrite (val_div _ F64sem) by auto. rewrite E3, (val_ofZ _ F64sem) by auto. cbn [xdiv]. rewrite Req_bool_false by lra. reflexivity. }
  assert (MZ : (INR tp * INR tn - INR fp * INR fn)%R = IZR z) by (unfold z; rewrite minus_IZR, !mult_IZR, <- !INR_IZR_INZ; reflexivity).
  assert (PR : (s3 = sqrt ((INR tp + INR fp) * (INR tp + INR fn) * (INR tn + INR fp) * (INR tn + INR fn)) * (da * db * d1 * dc * d2 * dd * d3))%R).
  { pose proof (pos_INR tp). pose proof (pos_INR tn). pose proof (pos_INR fp). pose proof (pos_INR fn).
    rewrite !sqrt_mult by (repeat apply Rmult_le_pos; lra). rewrite !plus_INR in *. subst s3 s2 s1 sa sb sc sd. ring. }
  assert (ND : near 7 (da * db * d1 * dc * d2 * dd * d3)).
  { change 7 with (1 + 1 + 1 + 1 + 1 + 1 + 1). repeat apply near_mul; auto. }
  unfold mcc_real. rewrite MZ. set (Q := sqrt ((INR tp + INR fp) * (INR tp + INR fn) * (INR tn + INR fp) * (INR tn + INR fn))) in *.
  set (D := (da * db * d1 * dc * d2 * dd * d3)%R) in *. pose proof (near_pos _ _ ND) as PD.
  assert (PQ : (0 < Q)%R). { destruct (Rle_or_lt Q 0) as [L|]; auto. assert (Q * D <= 0)%R by nra. lra. }
  assert (MB : (Rabs (IZR z / Q) <= 1)%R).
  { rewrite <- MZ. apply Rabs_le. apply (mcc_range (INR tp) (INR tn) (INR fp) (INR fn)); try apply pos_INR.
    rewrite <- !plus_INR. repeat apply Rmult_lt_0_compat; apply lt_0_INR; lia. }
  destruct (Z.eq_dec z 0) as [Z0|Z0].
  - exists 0%R. rewrite EV, Z0. unfold Rdiv. rewrite !Rmult_0_l. split.
    + unfold f_rnd. rewrite rnd64_0, Rabs_R0, Rlt_bool_true; [reflexivity|apply bpow_gt_0].
    + rewrite Rminus_0_r, Rabs_R0. pose proof u64_pos. lra.
  - assert (V : exists m, val F64sem (n_div (n_ofZ z) P) = XFin m).
    { destruct (div_fin F64sem (n_ofZ z) P z) as [I1 I2]; auto; [apply (val_ofZ _ F64sem); auto|unfold ge1; rewrite E3; apply xleb_fin; lra|].
      rewrite (val_isinf _ F64sem) in I1. rewrite (val_isnan _ F64sem) in I2. destruct (val F64sem (n_div (n_ofZ z) P)) as [| |m|]; try discriminate. eauto. }
    destruct V as [m Em]. exists m. split; [exact Em|]. rewrite EV in Em.
    destruct (f_rnd_rel _ _ Em) as (q & Hq & ->).
    { assert (A1 : (1 <= Rabs (IZR z))%R) by (rewrite <- abs_IZR; apply IZR_le; lia).
      unfold Rdiv. rewrite Rabs_mult, Rabs_inv, (Rabs_pos_eq s3) by lra.
      assert (IB : (bpow radix2 (-53) <= / s3)%R).
      { change (bpow radix2 (-53)) with (/ IZR (2 ^ 53))%R. apply Rinv_le; [lra|]. apply Rle_trans with (1 := proj2 B3). apply IZR_le. lia. }
      apply Rle_trans with (bpow radix2 (-53)); [apply bpow_le; lia|]. pose proof (bpow_gt_0 radix2 (-53)). nra. }
    replace (IZR z / s3 * q - IZR z / Q)%R with ((IZR z / Q) * (q / D - 1))%R by (rewrite PR; field; lra).
    rewrite Rabs_mult. pose proof (near_quotient q D Hq ND) as NQ. pose proof (Rabs_pos (IZR z / Q)). pose proof (Rabs_pos (q / D - 1)). nra.
Qed.
Lemma wd_matthews_close (r p : list F64) n : length r = n -> length p = n -> (Z.of_nat n <= 2 ^ 26)%Z ->
  exists w, calc_wet_dry_performance_metrics (mk_arr [n] r) (mk_arr [n] p) = Ok w /\
  let tp := N_true_wet w in let tn := N_true_dry w in let fp := N_false_wet w in let fn := N_missed_wet w in
  (tp + fp <> 0 -> tp + fn <> 0 -> tn + fp <> 0 -> tn + fn <> 0 -> exists m,
     f_val (wd_matthews_correlation w) = XFin m /\ (Rabs (m - mcc_real (INR tp) (INR tn) (INR fp) (INR fn)) <= bpow radix2 (-49))%R /\ (Rabs m <= 1 + bpow radix2 (-49))%R).
Proof.
  intros Hr Hp Hn. assert (E : length r = length p) by congruence. rewrite (wd_eval r p n [] E).
  eexists. split; [reflexivity|]. cbn [N_true_wet N_true_dry N_false_wet N_missed_wet wd_matthews_correlation].
  pose proof (marginals zero (valid_pairs r p)) as (_ & _ & M3 & _ & M5). rewrite <- M3. clear M3.
  assert (HL : length (valid_pairs r p) <= n) by (pose proof (nan_count r p E); lia).
  revert M5. generalize (count (true_wet zero) (valid_pairs r p)) as tp. generalize (count (true_dry zero) (valid_pairs r p)) as tn.
  generalize (count (false_wet zero) (valid_pairs r p)) as fp. generalize (count (missed_wet zero) (valid_pairs r p)) as fn.
  intros fn fp tn tp M5 H1 H2 H3 H4.
  destruct (matthews_float F64sem tp tn fp fn) as [F1 F2]; [lia|]. rewrite F1. rewrite (proj2 (Nat.eqb_neq _ _) H1).
  destruct (matthews_close tp tn fp fn) as (m & Em & Bm); auto; [lia|]. exists m. split; [exact Em|].
  assert (U : (16 * u64 = bpow radix2 (-49))%R). { unfold u64. change (-49)%Z with (4 + -53)%Z. rewrite bpow_plus. reflexivity. }
  rewrite <- U. split; auto.
  assert (MB : (Rabs (mcc_real (INR tp) (INR tn) (INR fp) (INR fn)) <= 1)%R).
  { apply Rabs_le. apply mcc_range; try apply pos_INR. rewrite <- !plus_INR. repeat apply Rmult_lt_0_compat; apply lt_0_INR; lia. }
  set (k := mcc_real (INR tp) (INR tn) (INR fp) (INR fn)) in *. replace m with (k + (m - k))%R by ring. pose proof (Rabs_triang k (m - k)). lra.
Qed.
