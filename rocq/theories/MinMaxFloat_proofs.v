(** * Min/max attenuation in float64 *)
From Coq Require Import Reals Lra Lia ZArith Bool Psatz List.
From Flocq Require Import Core Relative IEEE754.BinarySingleNaN.
From Verif Require Import Base Num NumF64 NumList NpOps RealStat Ulp64 MinMax_model MinMax_spec MinMax_proofs HaversineFloat_spec HaversineFloat_proofs HaversineFloat_proofs2 HaversineAcc_proofs FloatErr_spec FloatErr_proofs IdwFloat_proofs StatsErr_spec StatsErr_proofs MinMaxFloat_spec.
Import ListNotations.
Local Open Scope R_scope.
Local Arguments bpow : simpl never.

Lemma num_isnan x r : is_num x r -> n_isnan x = false.
Proof. intros H. pose proof (val_isnan _ F64sem x) as V. change (n_isnan x = xisnan (f_val x)) in V. rewrite V, H. reflexivity. Qed.
Lemma isnan_val (x : F64) : n_isnan x = true -> f_val x = XNaN.
Proof. intros H. pose proof (val_isnan _ F64sem x) as V. change (n_isnan x = xisnan (f_val x)) in V. rewrite V in H. destruct (f_val x); auto; discriminate. Qed.
Lemma isnan_of (x : F64) : f_val x = XNaN -> n_isnan x = true.
Proof. intros H. pose proof (val_isnan _ F64sem x) as V. change (n_isnan x = xisnan (f_val x)) in V. rewrite V, H. reflexivity. Qed.
Lemma rnd_abs_pow r k : (k <= 1000)%nat -> Rabs r <= 2 ^ k -> Rabs (rnd64 r) <= 2 ^ k.
Proof. intros K H. rewrite <- rnd64_abs. apply rnd_pow_hi; auto. Qed.
Lemma level_op (f : F64 -> F64 -> F64) (g : R -> R -> R) (xg : xr -> xr -> xr) k a b (x y : F64) :
  (forall x y, f_val (f x y) = f_rnd (xg (f_val x) (f_val y))) -> (forall y, xg XNaN y = XNaN) -> (forall x, xg x XNaN = XNaN) -> (forall a b, xg (XFin a) (XFin b) = XFin (g a b)) ->
  (k <= 1000)%nat -> (forall p q, Rabs p <= a -> Rabs q <= b -> Rabs (g p q) <= 2 ^ k) -> level a x -> level b y -> level (2 ^ k) (f x y).
Proof.
  intros V N1 N2 FN K B X Y. destruct X as [X|(p & X & P)]; [left; apply isnan_of; rewrite V, (isnan_val x X), N1; reflexivity|].
  destruct Y as [Y|(q & Y & Q)]; [left; apply isnan_of; rewrite V, (isnan_val y Y), N2; reflexivity|].
  right. exists (rnd64 (g p q)). specialize (B p q P Q). split; [|apply rnd_abs_pow; auto]. apply is_rnd; [|apply Rle_trans with (1 := B), pow_big; auto]. rewrite V, X, Y, FN. reflexivity.
Qed.
Lemma level_sub k a b (x y : F64) : (k <= 1000)%nat -> a + b <= 2 ^ k -> level a x -> level b y -> level (2 ^ k) (n_sub x y).
Proof.
  intros K B. apply (level_op n_sub Rminus xsub k a b x y); auto.
  - intros u v. exact (val_sub _ F64sem u v).
  - intros [| |p|]; reflexivity.
  - intros p q P Q. unfold Rminus. eapply Rle_trans; [apply Rabs_triang|]. rewrite Rabs_Ropp. lra.
Qed.
Lemma level_add k a b (x y : F64) : (k <= 1000)%nat -> a + b <= 2 ^ k -> level a x -> level b y -> level (2 ^ k) (n_add x y).
Proof.
  intros K B. apply (level_op n_add Rplus xadd k a b x y); auto.
  - intros u v. exact (val_add _ F64sem u v).
  - intros [| |p|]; reflexivity.
  - intros p q P Q. eapply Rle_trans; [apply Rabs_triang|]. lra.
Qed.
Lemma level_get M (l : list F64) i : (forall x, In x l -> level M x) -> level M (get n_nan l i).
Proof. intros H. destruct (le_lt_dec (length l) i); [unfold get; rewrite nth_overflow by auto; left; reflexivity|apply H, get_In; auto]. Qed.
Lemma numbers_nums (f : nat -> F64) n M : (forall i, level M (f i)) -> exists y, are_nums (numbers f n) y /\ forall v, In v y -> Rabs v <= M.
Proof.
  intros H. exists (map fr (numbers f n)).
  assert (A : forall x, In x (numbers f n) -> exists r, is_num x r /\ Rabs r <= M).
  { intros x I. unfold numbers in I. apply filter_In in I as (I & N). apply in_map_iff in I as (i & <- & _). destruct (H i) as [Q|Q]; [rewrite Q in N; discriminate|auto]. }
  split.
  - rewrite <- (map_id (numbers f n)) at 1. apply nums_map. intros x I. destruct (A x I) as (r & R & _). eauto.
  - intros v I. apply in_map_iff in I as (x & <- & I). destruct (A x I) as (r & R & B). rewrite (num_fr _ _ R). auto.
Qed.
Lemma rmean_abs_le M y : y <> [] -> (forall v, In v y -> Rabs v <= M) -> rmean (map Rabs y) <= M /\ Rabs (rmean y) <= M.
Proof.
  intros NE H. pose proof (ge1 y NE) as N1. assert (A : rsum (map Rabs y) <= M * INR (length y)).
  { clear NE N1. induction y as [|v y IH]; [cbn; lra|]. cbn [map rsum fold_right length]. rewrite S_INR. fold (rsum (map Rabs y)). pose proof (H v (or_introl eq_refl)). assert (rsum (map Rabs y) <= M * INR (length y)) by (apply IH; intros; apply H; right; auto). lra. }
  assert (I : 0 < / INR (length y)) by (apply Rinv_0_lt_compat; lra). assert (E : INR (length y) * / INR (length y) = 1) by (apply Rinv_r; lra).
  assert (B : rsum (map Rabs y) * / INR (length y) <= M) by (apply Rle_trans with (M * INR (length y) * / INR (length y)); [apply Rmult_le_compat_r; lra|rewrite Rmult_assoc, E; lra]). unfold rmean, Rdiv. rewrite map_length. split; [auto|].
  rewrite Rabs_mult, (Rabs_pos_eq (/ INR (length y))) by lra. apply Rle_trans with (2 := B). apply Rmult_le_compat_r; [lra|]. exact (rsum_asum y).
Qed.
(** the fill value *)
Lemma fill_num (f : nat -> F64) n : INR n <= 2 ^ 20 -> (forall i, level (2 ^ 12) (f i)) -> (exists i, (i < n)%nat /\ n_isnan (f i) = false) ->
  exists y z, are_nums (numbers f n) y /\ y <> [] /\ is_num (n_rint (n_mean (numbers f n))) (IZR z) /\ Rabs (IZR z - rmean y) <= / 2 + / 2 ^ 18 /\ Rabs (IZR z) <= 2 ^ 13.
Proof.
  intros FW H (i & Hi & NI). destruct (numbers_nums f n _ H) as (y & Y & B).
  assert (NE : y <> []). { intros ->. inversion Y as [E|]. assert (I : In (f i) (numbers f n)) by (unfold numbers; apply filter_In; split; [apply in_map, in_seq; lia|rewrite NI; auto]). rewrite <- E in I. destruct I. }
  assert (LY : (length y <= n)%nat). { assert (length (numbers f n) = length y) as <- by (clear -Y; unfold are_nums in Y; induction Y; [reflexivity|apply (f_equal Datatypes.S); assumption]).
    unfold numbers. assert (forall l : list F64, length (filter (fun x => negb (n_isnan x)) l) <= length l)%nat as F by (clear; intros l; induction l as [|a l IH]; cbn [filter length]; [apply le_n|]; destruct (negb (n_isnan a)); cbn [length]; [apply le_n_S; exact IH|apply le_S; exact IH]).
    specialize (F (map f (seq 0 n))). rewrite map_length, seq_length in F. exact F. }
  assert (FY : INR (length y) <= 2 ^ 20) by (apply Rle_trans with (2 := FW), le_INR; auto).
  assert (P : 2 ^ 12 <= 2 ^ 500) by (apply Rle_pow; [lra|lia]).
  destruct (mean_abs_close (numbers f n) y (n_mean (numbers f n)) NE FY Y (n_mean_of _)) as (v & V & C); [intros w W; specialize (B w W); lra|].
  destruct (rmean_abs_le (2 ^ 12) y NE B) as (M1 & M2). pose proof u64_pos as UP. pose proof n0_pos as NP. pose proof n0_tiny as NT. pose proof (ge1 y NE) as N1.
  assert (E : 4 * INR (length y) * u64 * rmean (map Rabs y) + 3 * n0 <= / 2 ^ 18).
  { apply Rle_trans with (4 * 2 ^ 20 * u64 * 2 ^ 12 + 3 * / 2 ^ 200); [|rewrite u64_val; simpl; lra]. apply Rplus_le_compat; [|lra].
    apply Rmult_le_compat; [|unfold rmean; apply Rmult_le_pos; [apply rsum_map_nonneg; intros; apply Rabs_pos|apply Rlt_le, Rinv_0_lt_compat; rewrite map_length; lra]| |auto].
    - apply Rmult_le_pos; [lra|lra].
    - apply Rmult_le_compat_r; lra. }
  exists y, (ZnearestE v). split; [auto|split; [auto|split]].
  - pose proof (val_rint _ F64sem (n_mean (numbers f n))) as R. change (f_val (n_rint (n_mean (numbers f n))) = xrint (f_val (n_mean (numbers f n)))) in R. unfold is_num. rewrite R, V. reflexivity.
  - pose proof (Znearest_half (fun x => negb (Z.even x)) v) as ZH. assert (T : Rabs (IZR (ZnearestE v) - rmean y) <= / 2 + / 2 ^ 18).
    { replace (IZR (ZnearestE v) - rmean y) with (- (v - IZR (ZnearestE v)) + (v - rmean y)) by ring. eapply Rle_trans; [apply Rabs_triang|]. rewrite Rabs_Ropp. change (Rabs (v - IZR (ZnearestE v)) <= / 2) in ZH. lra. }
    split; [exact T|]. replace (IZR (ZnearestE v)) with ((IZR (ZnearestE v) - rmean y) + rmean y) by ring. eapply Rle_trans; [apply Rabs_triang|]. simpl in *. lra.
Qed.

Lemma min_max_numbers (tx_min tx_max rx_min rx_max : list F64) (gT gR : F64) tT tR window n :
  length tx_min = n -> length tx_max = n -> length rx_min = n -> length rx_max = n -> INR n <= 2 ^ 20 ->
  (forall x, In x (tx_min ++ tx_max ++ rx_min ++ rx_max) -> level (2 ^ 10) x) -> is_num gT tT -> is_num gR tR -> Rabs tT <= 2 ^ 10 -> Rabs tR <= 2 ^ 10 ->
  let cmax := corrected_max tx_max rx_min gT gR in let cmin := corrected_min tx_min rx_max gT gR in
  (exists i, (i < n)%nat /\ n_isnan (cmax i) = false) -> (exists i, (i < n)%nat /\ n_isnan (cmin i) = false) ->
  exists ymax ymin (fmax fmin : Z) out, are_nums (numbers cmax n) ymax /\ are_nums (numbers cmin n) ymin /\
    Rabs (IZR fmax - rmean ymax) <= / 2 + / 2 ^ 18 /\ Rabs (IZR fmin - rmean ymin) <= / 2 + / 2 ^ 18 /\
    calc_A_min_max tx_min tx_max rx_min rx_max gT gR window = Ok out /\ length out = n /\
    forall i, (i < n)%nat -> (window <= i)%nat ->
    exists x m v, is_num (filled (n_ofZ fmax) (cmax i)) x /\
      (exists k, (i - window <= k <= i)%nat /\ is_num (filled (n_ofZ fmin) (cmin k)) m) /\
      (forall k, (i - window <= k <= i)%nat -> exists y, is_num (filled (n_ofZ fmin) (cmin k)) y /\ m <= y) /\
      is_num (get n_nan out i) v /\ v = Rmax 0 (rnd64 (x - m)).
Proof.
  intros L1 L2 L3 L4 FW HL IT IR BT BR cmax cmin EX EN.
  assert (LB : level (2 ^ 10) (bias gT gR)).
  { unfold bias. assert (A : level (2 ^ 11) (n_add gT gR)) by (apply (level_add 11 (2 ^ 10) (2 ^ 10)); [lia|simpl; lra|right; eauto|right; eauto]).
    destruct A as [A|(r & A & B)]; [exfalso; pose proof (is_add _ _ _ _ IT IR) as I; rewrite (num_isnan _ (rnd64 (tT + tR))) in A; [discriminate|]; apply I; eapply Rle_trans; [apply Rabs_triang|]; apply Rle_trans with (2 ^ 11); [simpl in *; lra|apply pow_big; lia]|].
    right. assert (R2 : Rabs (r / 2) <= 2 ^ 10) by (unfold Rdiv; rewrite Rabs_mult, (Rabs_pos_eq (/ 2)) by lra; simpl in *; lra).
    exists (rnd64 (r / 2)). split; [|apply rnd_abs_pow; [lia|auto]]. apply is_div; auto; [apply (num_ofZ 2); lia|apply Rle_trans with (1 := R2), pow_big; lia]. }
  assert (LX : forall i, level (2 ^ 12) (cmax i)).
  { intros i. apply (level_sub 12 (2 ^ 11) (2 ^ 10)); [lia|simpl; lra| |auto]. apply (level_sub 11 (2 ^ 10) (2 ^ 10)); [lia|simpl; lra| |]; apply level_get; intros x I; apply HL; rewrite !in_app_iff; auto. }
  assert (LN : forall i, level (2 ^ 12) (cmin i)).
  { intros i. apply (level_add 12 (2 ^ 11) (2 ^ 10)); [lia|simpl; lra| |auto]. apply (level_sub 11 (2 ^ 10) (2 ^ 10)); [lia|simpl; lra| |]; apply level_get; intros x I; apply HL; rewrite !in_app_iff; auto. }
  destruct (fill_num cmax n FW LX EX) as (ymax & zx & AX & NX & IX & CX & BX). destruct (fill_num cmin n FW LN EN) as (ymin & zn & AN & NN & IN & CN & BN).
  destruct (min_max_main F64sem tx_min tx_max rx_min rx_max gT gR window n L1 L2 L3 L4) as (out & E & LO & _ & H2). fold cmax cmin in H2.
  exists ymax, ymin, zx, zn, out. split; [auto|split; [auto|split; [auto|split; [auto|split; [auto|split; [auto|]]]]]]. intros i Hi Hw.
  assert (ZB : forall z, Rabs (IZR z) <= 2 ^ 13 -> is_num (n_ofZ z) (IZR z)).
  { intros z B. apply num_ofZ. rewrite <- abs_IZR in B. assert (Z.abs z <= 2 ^ 13)%Z by (apply le_IZR; apply Rle_trans with (1 := B); simpl; lra). lia. }
  assert (FIL : forall (fill : F64) z (c : F64), is_num fill (IZR z) -> Rabs (IZR z) <= 2 ^ 13 -> level (2 ^ 12) c -> exists r, is_num (filled fill c) r /\ Rabs r <= 2 ^ 13).
  { intros fill z c F B [C|(r & C & D)]; unfold filled; [rewrite C; eauto|rewrite (num_isnan _ _ C); exists r; split; auto; simpl in *; lra]. }
  assert (SAME : forall (fill : F64) z (c : F64) r, is_num fill (IZR z) -> Rabs (IZR z) <= 2 ^ 13 -> is_num (filled fill c) r <-> is_num (filled (n_ofZ z) c) r).
  { intros fill z c r F B. unfold filled. destruct (n_isnan c); [|reflexivity]. split; intros Q; [rewrite (is_num_fun _ _ _ Q F); auto|rewrite (is_num_fun _ _ _ Q (ZB z B)); auto]. }
  destruct (H2 i Hi Hw) as (mm & Hm & Gm). destruct (FIL _ zx (cmax i) IX BX (LX i)) as (x & FX & BBX).
  unfold is_min in Hm.
  assert (N0 : existsb n_isnan (map (fun k => filled (n_rint (n_mean (numbers cmin n))) (cmin k)) (seq (i - window) (window + 1))) = false).
  { apply not_true_is_false. intros C. apply existsb_exists in C as (z & Hz & Nz). apply in_map_iff in Hz as (k & <- & _). destruct (FIL _ zn (cmin k) IN BN (LN k)) as (r & R & _). rewrite (num_isnan _ _ R) in Nz. discriminate. }
  rewrite N0 in Hm. destruct Hm as (Im & Lm). apply in_map_iff in Im as (k & Ek & Hk). apply in_seq in Hk. destruct (FIL _ zn (cmin k) IN BN (LN k)) as (m & FM & BM). rewrite Ek in FM.
  exists x, m, (Rmax 0 (rnd64 (x - m))). split; [apply (SAME _ zx _ _ IX BX); auto|]. split; [exists k; split; [lia|]; apply (SAME _ zn _ _ IN BN); rewrite Ek; auto|]. split; [|split; [|reflexivity]].
  - intros j Hj. destruct (FIL _ zn (cmin j) IN BN (LN j)) as (y & FY & _). exists y. split; [apply (SAME _ zn _ _ IN BN); auto|].
    assert (Lj : n_leb mm (filled (n_rint (n_mean (numbers cmin n))) (cmin j)) = true) by (apply Lm, in_map_iff; exists j; split; auto; apply in_seq; lia).
    pose proof (val_leb _ F64sem mm (filled (n_rint (n_mean (numbers cmin n))) (cmin j))) as VL. change (n_leb mm (filled (n_rint (n_mean (numbers cmin n))) (cmin j)) = xleb (f_val mm) (f_val (filled (n_rint (n_mean (numbers cmin n))) (cmin j)))) in VL.
    rewrite VL, FM, FY in Lj. change (Rle_bool m y = true) in Lj. destruct (Rle_bool_spec m y); auto; discriminate.
  - rewrite Gm. assert (D : is_num (n_sub (filled (n_rint (n_mean (numbers cmax n))) (cmax i)) mm) (rnd64 (x - m))).
    { apply is_sub; auto. unfold Rminus. eapply Rle_trans; [apply Rabs_triang|]. rewrite Rabs_Ropp. apply Rle_trans with (2 ^ 14); [simpl in *; lra|apply pow_big; lia]. }
    unfold positive_part. rewrite (num_ltb _ _ _ _ D (num_ofZ 0 ltac:(lia))). destruct (Rlt_bool_spec (rnd64 (x - m)) 0).
    + rewrite Rmax_left by lra. apply (num_ofZ 0). lia.
    + rewrite Rmax_right by lra. exact D.
Qed.
