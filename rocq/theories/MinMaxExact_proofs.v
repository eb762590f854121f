(** * Min/max attenuation of quantised levels: no rounding error in binary64 *)
From Coq Require Import List ZArith Bool Reals Lia Lra Psatz.
From Flocq Require Import Core.
From Verif Require Import Base Num NumF64 NumList NpOps Ulp64 SumFloat_proofs HaversineAcc_proofs MinMax_model Shift_spec Shift_proofs MinMaxExact_spec.
Import ListNotations.
Local Open Scope R_scope.
Local Notation length := List.length.
Local Notation V := (map (f_val : F64 -> XR)).

Definition gr (K B : Z) (v : xr) : Prop := v = XNaN \/ exists a : Z, (Z.abs a <= B)%Z /\ v = XFin (IZR a * bpow radix2 (- K)).
Lemma gr_weak K B C v : gr K B v -> (B <= C)%Z -> gr K C v.
Proof. intros [H|(a & A & H)] L; [left; auto|right]. exists a. split; [lia|auto]. Qed.
Lemma gr_finer K B v : gr K B v -> gr (K + 1) (2 * B) v.
Proof.
  intros [H|(a & A & H)]; [left; auto|right]. exists (2 * a)%Z. split; [lia|]. rewrite H. f_equal. rewrite mult_IZR.
  replace (- K)%Z with (1 + - (K + 1))%Z by ring. rewrite (bpow_plus radix2 1). change (bpow radix2 1) with 2. ring.
Qed.
Lemma in_steps_gr q b x : in_steps q b x -> gr q (2 ^ b) (f_val x).
Proof.
  intros [H|H]; [left|right; exact H].
  change (n_isnan x = true) with (n_isnan (x : F64) = true) in H. rewrite (val_isnan _ F64sem) in H.
  change (val F64sem x) with (f_val x) in H. destruct (f_val x); simpl in H; try discriminate; auto.
Qed.
Section K.
Variable K : Z.
Hypothesis HK : (0 <= K <= 900)%Z.
Lemma gr_add A B v w : gr K A v -> gr K B w -> (A + B <= 2 ^ 53)%Z -> f_rnd (xadd v w) = xadd v w /\ gr K (A + B) (xadd v w).
Proof using HK.
  intros [->|(a & HA & ->)]; [intros _ _; split; [reflexivity|left; reflexivity]|]. intros [->|(b & HB & ->)] L; [split; [reflexivity|left; reflexivity]|].
  cbn [xadd]. rewrite <- Rmult_plus_distr_r, <- plus_IZR. split; [apply rnd_grid; lia|]. right. exists (a + b)%Z. split; [lia|reflexivity].
Qed.
Lemma gr_opp B v : gr K B v -> gr K B (xopp v).
Proof using. intros [->|(a & HA & ->)]; [left; reflexivity|right]. exists (- a)%Z. split; [lia|]. cbn. f_equal. rewrite opp_IZR. ring. Qed.
Lemma gr_sub A B v w : gr K A v -> gr K B w -> (A + B <= 2 ^ 53)%Z -> f_rnd (xsub v w) = xsub v w /\ gr K (A + B) (xsub v w).
Proof using HK. intros HA HB. unfold xsub. apply gr_add; auto. apply gr_opp; auto. Qed.
Lemma g_add A B (x y : F64) : gr K A (f_val x) -> gr K B (f_val y) -> (A + B <= 2 ^ 53)%Z ->
  f_val (n_add x y) = (n_add (f_val x : XR) (f_val y : XR)) /\ gr K (A + B) (f_val (n_add x y)).
Proof using HK. intros HA HB L. change (n_add x y) with (f_add x y). rewrite f_val_add. destruct (gr_add A B _ _ HA HB L) as [E G]. rewrite E. split; [reflexivity|exact G]. Qed.
Lemma g_sub A B (x y : F64) : gr K A (f_val x) -> gr K B (f_val y) -> (A + B <= 2 ^ 53)%Z ->
  f_val (n_sub x y) = (n_sub (f_val x : XR) (f_val y : XR)) /\ gr K (A + B) (f_val (n_sub x y)).
Proof using HK. intros HA HB L. change (n_sub x y) with (f_sub x y). rewrite f_val_sub. destruct (gr_sub A B _ _ HA HB L) as [E G]. rewrite E. split; [reflexivity|exact G]. Qed.
End K.
(** sums and means *)
Definition agr K B (l : list F64) := forall x, In x l -> gr K B (f_val x).
Lemma sum_exact K B : (0 <= K <= 900)%Z -> (0 <= B)%Z -> forall l (acc : F64) (a : Z) A, agr K B l -> (forall x, In x l -> n_isnan x = false) ->
  f_val acc = XFin (IZR a * bpow radix2 (- K)) -> (Z.abs a <= A)%Z -> (A + Z.of_nat (length l) * B <= 2 ^ 53)%Z ->
  exists s : Z, (Z.abs s <= A + Z.of_nat (length l) * B)%Z /\ f_val (fold_left n_add l acc) = XFin (IZR s * bpow radix2 (- K)) /\
    fold_left n_add (V l) (f_val acc : XR) = (XFin (IZR s * bpow radix2 (- K)) : XR).
Proof.
  intros HK HB. induction l as [|x l IH]; intros acc a A H N E HA L.
  - cbn [fold_left map length] in *. exists a. split; [simpl; lia|]. split; exact E.
  - cbn [fold_left map length] in *. destruct (H x (or_introl eq_refl)) as [F|(b & Bb & F)].
    { pose proof (N x (or_introl eq_refl)) as Q. rewrite (val_isnan _ F64sem) in Q. change (val F64sem x) with (f_val x) in Q. rewrite F in Q. discriminate Q. }
    assert (EE : f_val (n_add acc x) = XFin (IZR (a + b) * bpow radix2 (- K))).
    { change (n_add acc x) with (f_add acc x). rewrite f_val_add, E, F. cbn [xadd]. rewrite <- Rmult_plus_distr_r, <- plus_IZR. apply rnd_grid; lia. }
    destruct (IH (n_add acc x) (a + b)%Z (A + B)%Z) as (s & S1 & S2 & S3); [intros y Y; apply H; right; auto|intros y Y; apply N; right; auto|exact EE|lia|lia|].
    exists s. split; [lia|]. split; [exact S2|]. rewrite <- S3, EE, E, F. f_equal. cbn [n_add XR xadd]. f_equal. rewrite plus_IZR. ring.
Qed.
Lemma rint_div s K n : (1 <= K <= 60)%Z -> (0 < n <= 2 ^ 24)%Z -> (Z.abs s <= 2 ^ 51)%Z ->
  f_rnd (XFin (IZR s * bpow radix2 (- K) / IZR n)) = XFin (rnd64 (IZR s * bpow radix2 (- K) / IZR n)) /\
  ZnearestE (rnd64 (IZR s * bpow radix2 (- K) / IZR n)) = ZnearestE (IZR s * bpow radix2 (- K) / IZR n).
Proof.
  intros HK Hn Hs. set (x := IZR s * bpow radix2 (- K) / IZR n).
  assert (Pn : 0 < IZR n) by (apply IZR_lt; lia).
  set (g := bpow radix2 (- K) / IZR n).
  assert (Pb : 0 < bpow radix2 (- K)) by apply bpow_gt_0.
  assert (Pg : 0 < g) by (apply Rdiv_lt_0_compat; auto).
  assert (Ex : x = IZR s * g) by (unfold x, g; field; lra).
  assert (Gs : bpow radix2 (-84) <= g).
  { unfold g. apply Rmult_le_reg_r with (IZR n); auto. replace (bpow radix2 (- K) / IZR n * IZR n) with (bpow radix2 (- K)) by (field; lra).
    apply Rle_trans with (bpow radix2 (-84) * IZR (2 ^ 24)); [apply Rmult_le_compat_l; [apply bpow_ge_0|apply IZR_le; lia]|].
    change (IZR (2 ^ 24)) with (bpow radix2 24). rewrite <- bpow_plus. apply bpow_le. lia. }
  assert (Ax : Rabs x <= bpow radix2 51 * g).
  { rewrite Ex, Rabs_mult, (Rabs_pos_eq g) by lra. apply Rmult_le_compat_r; [lra|]. rewrite <- abs_IZR. change (bpow radix2 51) with (IZR (2 ^ 51)). apply IZR_le. auto. }
  assert (Gb : g <= 1 / 2).
  { unfold g. apply Rle_trans with (bpow radix2 (- K)).
    - apply Rmult_le_reg_r with (IZR n); auto. replace (bpow radix2 (- K) / IZR n * IZR n) with (bpow radix2 (- K) * 1) by (field; lra). apply Rmult_le_compat_l; [lra|]. apply IZR_le. lia.
    - replace (1 / 2) with (bpow radix2 (-1)) by (cbn; lra). apply bpow_le. lia. }
  pose proof (rnd64_close x) as C.
  assert (N0 : n0 <= g / 4).
  { apply Rle_trans with (bpow radix2 (-84) * bpow radix2 (-2)).
    - unfold n0. rewrite <- bpow_plus. apply bpow_le. lia.
    - replace (g / 4) with (g * bpow radix2 (-2)) by (cbn; lra). apply Rmult_le_compat_r; [apply bpow_ge_0|auto]. }
  assert (C2 : Rabs (rnd64 x - x) < g).
  { eapply Rle_lt_trans; [exact C|]. assert (U : u64 * Rabs x <= g / 4).
    { eapply Rle_trans; [apply Rmult_le_compat_l; [apply Rlt_le, u64_pos|exact Ax]|]. unfold u64. rewrite <- Rmult_assoc, <- bpow_plus.
      change (bpow radix2 (-53 + 51)) with (/ 4). lra. }
    lra. }
  assert (B51 : bpow radix2 51 * g <= bpow radix2 50).
  { replace (bpow radix2 50) with (bpow radix2 51 * (1 / 2)) by (cbn; lra). apply Rmult_le_compat_l; [apply bpow_ge_0|auto]. }
  split.
  - unfold f_rnd. rewrite Rlt_bool_true; auto.
    apply Rlt_le_trans with (bpow radix2 51); [|apply bpow_le; lia]. replace (rnd64 x) with (rnd64 x - x + x) by ring.
    eapply Rle_lt_trans; [apply Rabs_triang|]. assert (1 <= bpow radix2 50) by (apply (bpow_le radix2 0 50); lia). replace (bpow radix2 51) with (2 * bpow radix2 50) by (cbn; lra). lra.
  - set (m := ZnearestE x). pose proof (Znearest_half (fun t => negb (Z.even t)) x) as Hh. fold m in Hh.
    assert (Hd : forall h : Z, x = (IZR h + 1 / 2) \/ g <= Rabs (x - (IZR h + 1 / 2))).
    { intros h. set (t := (s - (2 * h + 1) * 2 ^ (K - 1) * n)%Z).
      assert (E : x - (IZR h + 1 / 2) = IZR t * g).
      { unfold t. rewrite Ex, minus_IZR, !mult_IZR, plus_IZR, mult_IZR. assert (E2 : IZR (2 ^ (K - 1)) = bpow radix2 (K - 1)) by (apply (IZR_Zpower radix2); lia). rewrite E2.
        unfold g, Zminus. rewrite bpow_plus. change (bpow radix2 (-(1))) with (/ 2). rewrite bpow_opp. pose proof (bpow_gt_0 radix2 K). field. split; lra. }
      destruct (Z.eq_dec t 0) as [T|T].
      - left. rewrite T in E. lra.
      - right. rewrite E, Rabs_mult, (Rabs_pos_eq g) by lra. rewrite <- abs_IZR. assert (1 <= IZR (Z.abs t)) by (apply IZR_le; lia). nra. }
    assert (Hrep : forall h : Z, x = (IZR h + 1 / 2) -> rnd64 x = x).
    { intros h E. assert (Q : x = IZR (2 * h + 1) * bpow radix2 (-1)) by (rewrite E, plus_IZR, mult_IZR; cbn; lra).
      pose proof (rnd_grid (2 * h + 1) (-1) ltac:(lia)) as G. rewrite <- Q in G.
      assert (L : (Z.abs (2 * h + 1) <= 2 ^ 53)%Z).
      { apply le_IZR. rewrite abs_IZR. replace (IZR (2 * h + 1)) with (2 * x) by (rewrite Q; cbn; lra). rewrite Rabs_mult, (Rabs_pos_eq 2) by lra.
        change (IZR (2 ^ 53)) with (bpow radix2 53). replace (bpow radix2 53) with (8 * bpow radix2 50) by (cbn; lra). pose proof (bpow_ge_0 radix2 50). lra. }
      specialize (G L). unfold f_rnd in G. destruct (Rlt_bool _ _); [injection G; auto|]. destruct (Rlt_bool _ _); discriminate. }
    destruct (Hd m) as [D1|D1]; [rewrite (Hrep _ D1); reflexivity|].
    destruct (Hd (m - 1)%Z) as [D2|D2]; [rewrite (Hrep _ D2); reflexivity|].
    apply Znearest_imp. rewrite minus_IZR in D2. revert Hh D1 D2 C2. unfold Rabs. repeat destruct Rcase_abs; lra.
Qed.

Lemma V_isnan (x : F64) : n_isnan (f_val x : XR) = n_isnan x.
Proof. symmetry. exact (val_isnan _ F64sem x). Qed.
Lemma V_ltb (x y : F64) : n_ltb (f_val x : XR) (f_val y : XR) = n_ltb x y.
Proof. symmetry. exact (val_ltb _ F64sem x y). Qed.
Lemma not_nan_V (l : list F64) : filter (fun x : XR => negb (n_isnan x)) (V l) = V (filter (fun x : F64 => negb (n_isnan x)) l).
Proof. induction l as [|x l IH]; [reflexivity|]. cbn [map filter]. rewrite V_isnan, IH. destruct (n_isnan x); reflexivity. Qed.
Lemma filter_len {A} (f : A -> bool) l : (length (filter f l) <= length l)%nat.
Proof. induction l as [|x l IH]; cbn [filter length]; [lia|]. destruct (f x); cbn [length]; lia. Qed.
Lemma rint_mean K B (l : list F64) : (1 <= K <= 60)%Z -> (0 <= B)%Z -> agr K B l -> (Z.of_nat (length l) <= 2 ^ 24)%Z -> (Z.of_nat (length l) * B <= 2 ^ 51)%Z ->
  f_val (n_rint (nanmean l)) = n_rint (nanmean (V l)) /\ gr K (B + 2 ^ K) (f_val (n_rint (nanmean l))).
Proof.
  intros HK HB H L1 L2. unfold nanmean. rewrite not_nan_V. set (m := filter _ l).
  assert (Lm : (length m <= length l)%nat) by (unfold m; apply filter_len).
  assert (Hm : agr K B m) by (intros x X; apply H; apply filter_In in X; apply X).
  assert (Nm : forall x, In x m -> n_isnan x = false) by (intros x X; apply filter_In in X as [_ X]; apply negb_true_iff; exact X).
  clearbody m. unfold n_mean, n_sum. rewrite map_length.
  assert (Z0 : f_val (zero : F64) = XFin 0) by (apply (val_ofZ _ F64sem 0); cbn; discriminate).
  change (n_rint (n_div (fold_left n_add m zero) (n_ofZ (Z.of_nat (length m))))) with (f_rint (f_div (fold_left (n_add (n:=F64)) m zero) (f_ofZ (Z.of_nat (length m))))).
  rewrite f_val_rint.
  destruct (sum_exact K B ltac:(lia) HB m zero 0 0 Hm Nm) as (s & S1 & S2 & S3); [rewrite Z0; f_equal; ring|lia|nia|].
  rewrite Z0 in S3. change (fold_left (n_add (n:=XR)) (V m) (zero (O:=XR)) = XFin (IZR s * bpow radix2 (- K))) in S3. rewrite S3.
  assert (EN : f_val (f_ofZ (Z.of_nat (length m))) = XFin (IZR (Z.of_nat (length m)))) by (apply f_val_ofZ_exact; lia).
  change (n_ofZ (Z.of_nat (length m)) : XR) with (XFin (IZR (Z.of_nat (length m)))).
  destruct (Z.eq_dec (Z.of_nat (length m)) 0) as [M0|M0].
  - destruct m; [|simpl in M0; lia]. cbn [length fold_left] in *. change (Z.of_nat 0) with 0%Z in *.
    assert (s0 : s = 0%Z) by lia. subst s. destruct (f_val_div0 (zero : F64) (f_ofZ 0) EN) as [Q _].
    rewrite Q by (right; exact Z0). split; [|left; reflexivity].
    cbn [n_rint n_div XR xdiv]. rewrite Req_bool_true by reflexivity. rewrite Rcompare_Eq by ring. reflexivity.
  - rewrite f_val_div by (rewrite EN; intros Q; injection Q as Q; apply eq_IZR in Q; contradiction).
    rewrite S2, EN. cbn [n_rint n_div XR xdiv]. rewrite Req_bool_false by (intros Q; apply eq_IZR in Q; contradiction).
    destruct (rint_div s K (Z.of_nat (length m)) HK ltac:(lia) ltac:(nia)) as [R1 R2]. rewrite R1. cbn [xrint]. rewrite R2.
    split; [reflexivity|]. right. set (x := IZR s * bpow radix2 (- K) / IZR (Z.of_nat (length m))). set (z := ZnearestE x).
    exists (z * 2 ^ K)%Z.
    assert (E2 : IZR (2 ^ K) = bpow radix2 K) by (apply (IZR_Zpower radix2); lia). assert (Pk : 0 < bpow radix2 K) by apply bpow_gt_0.
    split.
    + apply le_IZR. rewrite abs_IZR, mult_IZR, plus_IZR, E2. pose proof (Znearest_half (fun t => negb (Z.even t)) x) as Hh. fold z in Hh.
      assert (Pn : 1 <= IZR (Z.of_nat (length m))) by (apply IZR_le; lia).
      assert (Ax : Rabs x * bpow radix2 K <= IZR B).
      { unfold x, Rdiv. rewrite !Rabs_mult, (Rabs_pos_eq (bpow radix2 (- K))) by apply bpow_ge_0. rewrite (Rabs_pos_eq (/ _)) by (apply Rlt_le, Rinv_0_lt_compat; lra).
        rewrite bpow_opp, <- abs_IZR. replace (IZR (Z.abs s) * / bpow radix2 K * / IZR (Z.of_nat (length m)) * bpow radix2 K) with (IZR (Z.abs s) / IZR (Z.of_nat (length m))) by (field; split; lra).
        apply Rmult_le_reg_r with (IZR (Z.of_nat (length m))); [lra|]. unfold Rdiv. rewrite Rmult_assoc, Rinv_l, Rmult_1_r by lra. rewrite <- mult_IZR. apply IZR_le. lia. }
      rewrite Rabs_mult, (Rabs_pos_eq (bpow radix2 K)) by lra.
      assert (Az : Rabs (IZR z) <= Rabs x + 1) by (revert Hh; unfold Rabs; repeat destruct Rcase_abs; lra).
      apply Rle_trans with ((Rabs x + 1) * bpow radix2 K); [apply Rmult_le_compat_r; lra|lra].
    + f_equal. rewrite mult_IZR, E2, bpow_opp. field. lra.
Qed.
Lemma fill_exact K B (l : list F64) : (1 <= K <= 60)%Z -> (0 <= B)%Z -> agr K B l -> (Z.of_nat (length l) <= 2 ^ 24)%Z -> (Z.of_nat (length l) * B <= 2 ^ 51)%Z ->
  fill_nan (V l) = V (fill_nan l) /\ agr K (B + 2 ^ K) (fill_nan l).
Proof.
  intros HK HB H L1 L2. destruct (rint_mean K B l HK HB H L1 L2) as [E G]. unfold fill_nan, mask_fill. rewrite <- E.
  assert (P2 : (0 <= 2 ^ K)%Z) by (apply Z.pow_nonneg; lia).
  clear E L1 L2. set (v := n_rint (nanmean l)) in *. clearbody v. induction l as [|x l IH]; [split; [reflexivity|intros x []]|].
  destruct IH as [E1 E2]; [intros y Y; apply H; right; auto|]. unfold map2 in *. cbn [map combine fst snd]. split.
  - rewrite V_isnan. cbn [map] in E1. rewrite <- E1. f_equal. destruct (n_isnan x); reflexivity.
  - intros y [Y|Y]; [|apply E2; exact Y]. subst y. destruct (n_isnan x); [exact G|]. apply (gr_weak K B); [apply H; left; auto|lia].
Qed.
(** list operations *)
Lemma bcast_V (f : F64 -> F64 -> F64) (g : XR -> XR -> XR) P Q (R : F64 -> Prop) : (forall x y, P x -> Q y -> f_val (f x y) = g (f_val x) (f_val y) /\ R (f x y)) ->
  forall l m, (forall x, In x l -> P x) -> (forall y, In y m -> Q y) ->
  bcast2 g (V l) (V m) = (do d <- bcast2 f l m; Ok (V d)) /\ (forall d, bcast2 f l m = Ok d -> (forall x, In x d -> R x) /\ (length d <= Nat.max (length l) (length m))%nat).
Proof.
  intros F l m Pl Qm. unfold bcast2. rewrite !map_length. destruct (Nat.eqb (length l) (length m)) eqn:EL.
  - assert (G : map2 g (V l) (V m) = V (map2 f l m) /\ (forall x, In x (map2 f l m) -> R x)).
    { clear EL. revert m Qm. induction l as [|x l IH]; intros [|y m] Qm; try (split; [reflexivity|intros z []]).
      destruct (IH (fun z Z => Pl z (or_intror Z)) m (fun z Z => Qm z (or_intror Z))) as [I1 I2].
      destruct (F x y (Pl x (or_introl eq_refl)) (Qm y (or_introl eq_refl))) as [F1 F2].
      unfold map2 in *. cbn [map combine fst snd]. rewrite I1, <- F1. split; [reflexivity|]. intros z [<-|Z]; auto. }
    destruct G as [G1 G2]. rewrite G1. split; [reflexivity|]. intros d D. injection D as <-. split; auto.
    unfold map2. rewrite map_length, combine_length. etransitivity; [apply Nat.le_min_l|apply Nat.le_max_l].
  - destruct l as [|x [|x' l]].
    + destruct m as [|y [|y' m]]; cbn; try (split; [reflexivity|intros d D; discriminate D]).
      split; [reflexivity|]. intros d D. injection D as <-. split; [intros x []|simpl; lia].
    + cbn [map]. split.
      * cbn [bind]. f_equal. rewrite !map_map. apply map_ext_in. intros y Y. symmetry. apply F; [apply Pl; left; auto|auto].
      * intros d D. injection D as <-. split; [|rewrite map_length; apply Nat.le_max_r]. intros z Z. apply in_map_iff in Z as (y & <- & Y). apply F; [apply Pl; left; auto|auto].
    + destruct m as [|y [|y' m]]; [cbn; split; [reflexivity|intros d D; discriminate D]| |cbn; split; [reflexivity|intros d D; discriminate D]].
      change (V (x :: x' :: l)) with (f_val x :: f_val x' :: V l). change (V [y]) with [f_val y]. cbv iota. split.
      * cbn [bind]. f_equal. change (f_val x :: f_val x' :: V l) with (V (x :: x' :: l)). rewrite !map_map. apply map_ext_in. intros z Z. symmetry. apply F; [auto|apply Qm; left; auto].
      * intros d D. injection D as <-. split; [|change (f x y :: f x' y :: map (fun x => f x y) l) with (map (fun x => f x y) (x :: x' :: l)); rewrite map_length; apply Nat.le_max_l]. intros z Z.
        change (f x y :: f x' y :: map (fun x => f x y) l) with (map (fun x => f x y) (x :: x' :: l)) in Z. apply in_map_iff in Z as (w & <- & W). apply F; [auto|apply Qm; left; auto].
Qed.
Lemma nget_V (l : list F64) i : nget (V l) i = f_val (nget l i).
Proof. unfold nget, get. exact (map_nth (f_val : F64 -> XR) l n_nan i). Qed.
Lemma upd_V (l : list F64) i v : upd i (f_val v : XR) (V l) = V (upd i v l).
Proof. revert i. induction l as [|x l IH]; intros [|i]; cbn [upd map]; try reflexivity. f_equal. apply IH. Qed.
Lemma upd_slice_V vs : forall i (l : list F64), upd_slice i (V vs) (V l) = V (upd_slice i vs l).
Proof. induction vs as [|v vs IH]; intros i l; cbn [upd_slice map]; [reflexivity|]. rewrite upd_V. apply IH. Qed.
Lemma slice_V i j (l : list F64) : slice i j (V l) = V (slice i j l).
Proof. unfold slice. rewrite skipn_map, firstn_map. reflexivity. Qed.
Lemma min_V (l : list F64) : np_min (V l) = match np_min l with Ok v => Ok (f_val v : XR) | Err e => Err e end.
Proof.
  destruct l as [|x l]; [reflexivity|]. cbn [np_min map]. f_equal. unfold np_fold. revert x. induction l as [|y l IH]; intros x; [reflexivity|].
  cbn [map fold_left]. rewrite !V_isnan, V_ltb. destruct (n_isnan x); [apply IH|]. destruct (n_isnan y); [apply IH|]. destruct (n_ltb y x); apply IH.
Qed.
Lemma min_in {O : numops} (l : list O) v : np_min l = Ok v -> In v l.
Proof.
  destruct l as [|x l]; [discriminate|]. cbn [np_min]. intros H. injection H as <-. unfold np_fold. revert x. induction l as [|y l IH]; intros x; [left; reflexivity|].
  cbn [fold_left]. destruct (n_isnan x).
  - destruct (IH x) as [E|I]; [left; exact E|right; right; exact I].
  - destruct (n_isnan y); [right; apply IH|]. destruct (n_ltb y x); [right; apply IH|]. destruct (IH x) as [E|I]; [left; exact E|right; right; exact I].
Qed.
Lemma slice_in {A} (l : list A) i j x : In x (slice i j l) -> In x l.
Proof.
  unfold slice. intros H. assert (H2 : In x (skipn i l)).
  { rewrite <- (firstn_skipn (j - i) (skipn i l)). apply in_or_app. left. exact H. }
  rewrite <- (firstn_skipn i l). apply in_or_app. right. exact H2.
Qed.
Lemma nget_gr K B (l : list F64) i : agr K B l -> gr K B (f_val (nget l i)).
Proof. intros H. unfold nget, get. destruct (nth_in_or_default i l n_nan) as [I|E]; [apply H; exact I|rewrite E; left; reflexivity]. Qed.
Lemma rep_V (x : F64) (y : XR) n : f_val x = y -> V (repeat x n) = repeat y n.
Proof. intros <-. induction n as [|n IH]; cbn [repeat map]; [reflexivity|]. rewrite IH. reflexivity. Qed.

Theorem min_max_exact : forall (q : Z) (tx_min tx_max rx_min rx_max : list F64) (gT gR : F64) w, (0 <= q <= 40)%Z ->
  all_in_steps q 24 (gT :: gR :: tx_min ++ tx_max ++ rx_min ++ rx_max) ->
  (forall l, In l [tx_min; tx_max; rx_min; rx_max] -> Z.of_nat (length l) <= 2 ^ 24)%Z ->
  calc_A_min_max (numbers tx_min) (numbers tx_max) (numbers rx_min) (numbers rx_max) (f_val gT : XR) (f_val gR) w =
  res_numbers (calc_A_min_max tx_min tx_max rx_min rx_max gT gR w).
Proof.
  intros q tx_min tx_max rx_min rx_max gT gR w Hq H HL. unfold numbers, res_numbers.
  set (K := (q + 1)%Z).
  assert (G : forall x, In x (gT :: gR :: tx_min ++ tx_max ++ rx_min ++ rx_max) -> gr K (2 ^ 25) (f_val x)).
  { intros x X. apply (gr_finer q (2 ^ 24)). apply in_steps_gr. apply H. exact X. }
  assert (Gq : forall x, In x [gT; gR] -> gr q (2 ^ 24) (f_val x)) by (intros x [<-|[<-|[]]]; apply in_steps_gr, H; cbn; auto).
  assert (G1 : agr K (2 ^ 25) tx_min) by (intros x X; apply G; right; right; rewrite !in_app_iff; auto).
  assert (G2 : agr K (2 ^ 25) tx_max) by (intros x X; apply G; right; right; rewrite !in_app_iff; auto).
  assert (G3 : agr K (2 ^ 25) rx_min) by (intros x X; apply G; right; right; rewrite !in_app_iff; auto).
  assert (G4 : agr K (2 ^ 25) rx_max) by (intros x X; apply G; right; right; rewrite !in_app_iff; auto).
  assert (L1 := HL tx_min (or_introl eq_refl)). assert (L2 := HL tx_max (or_intror (or_introl eq_refl))).
  assert (L3 := HL rx_min (or_intror (or_intror (or_introl eq_refl)))). assert (L4 := HL rx_max (or_intror (or_intror (or_intror (or_introl eq_refl))))).
  clear HL H G. unfold calc_A_min_max.
  assert (Bi : f_val (n_div (n_add gT gR) (n_ofZ 2)) = (n_div (n_add (f_val gT : XR) (f_val gR)) (n_ofZ 2)) /\ gr K (2 ^ 25) (f_val (n_div (n_add gT gR) (n_ofZ 2)))).
  { destruct (g_add q ltac:(lia) (2 ^ 24) (2 ^ 24) gT gR) as [E S]; [apply Gq; left; auto|apply Gq; right; left; auto|lia|].
    rewrite <- E. clear E. set (s := n_add gT gR) in *. clearbody s.
    assert (V2 : f_val (f_ofZ 2) = XFin 2) by (apply f_val_ofZ_exact; lia).
    change (n_div s (n_ofZ 2)) with (f_div s (f_ofZ 2)). rewrite f_val_div by (rewrite V2; intros Q; injection Q; lra). rewrite V2.
    destruct S as [S|(a & A & S)]; rewrite S; [split; [reflexivity|left; reflexivity]|].
    cbn [n_div n_ofZ XR xdiv]. rewrite Req_bool_false by lra.
    replace (IZR a * bpow radix2 (- q) / 2) with (IZR a * bpow radix2 (- K)).
    - rewrite rnd_grid by (unfold K; lia). split; [reflexivity|]. right. exists a. split; [lia|reflexivity].
    - unfold K. replace (- q)%Z with (1 + - (q + 1))%Z by ring. rewrite (bpow_plus radix2 1). change (bpow radix2 1) with 2. field. }
  destruct Bi as [Be Bg]. rewrite <- Be. set (bias := n_div (n_add gT gR) (n_ofZ 2)) in *. clearbody bias. clear Be Gq gT gR.
  assert (HK : (0 <= K <= 900)%Z) by (unfold K; lia). assert (HK2 : (1 <= K <= 60)%Z) by (unfold K; lia).
  assert (KB : (2 ^ K <= 2 ^ 41)%Z) by (apply Z.pow_le_mono_r; unfold K; lia).
  assert (KP : (0 < 2 ^ K)%Z) by (apply Z.pow_pos_nonneg; unfold K; lia).
  clearbody K.
  destruct (bcast_V (n_sub (n:=F64)) (n_sub (n:=XR)) _ _ (fun x => gr K (2 ^ 26) (f_val x)) (fun x y X Y => g_sub K HK (2 ^ 25) (2 ^ 25) x y X Y ltac:(lia)) tx_max rx_min G2 G3) as [E1 F1].
  rewrite E1. clear E1. destruct (bcast2 n_sub tx_max rx_min) as [d1|e]; [|reflexivity]. cbn [bind]. destruct (F1 d1 eq_refl) as [P1 N1]. clear F1.
  destruct (bcast_V (n_sub (n:=F64)) (n_sub (n:=XR)) _ _ (fun x => gr K (2 ^ 26) (f_val x)) (fun x y X Y => g_sub K HK (2 ^ 25) (2 ^ 25) x y X Y ltac:(lia)) tx_min rx_max G1 G4) as [E2 F2].
  rewrite E2. clear E2. destruct (bcast2 n_sub tx_min rx_max) as [d2|e]; [|reflexivity]. cbn [bind]. destruct (F2 d2 eq_refl) as [P2 N2]. clear F2.
  assert (M1 : map (fun x : XR => n_sub x (f_val bias : XR)) (V d1) = V (map (fun x => n_sub x bias) d1) /\ agr K (2 ^ 27) (map (fun x => n_sub x bias) d1)).
  { split.
    - rewrite !map_map. apply map_ext_in. intros x X. symmetry. apply (g_sub K HK (2 ^ 26) (2 ^ 25)); [apply P1; exact X|exact Bg|lia].
    - intros z Z. apply in_map_iff in Z as (x & <- & X). apply (gr_weak K (2 ^ 26 + 2 ^ 25)); [|lia]. apply (g_sub K HK); [apply P1; exact X|exact Bg|lia]. }
  assert (M2 : map (fun x : XR => n_add x (f_val bias : XR)) (V d2) = V (map (fun x => n_add x bias) d2) /\ agr K (2 ^ 27) (map (fun x => n_add x bias) d2)).
  { split.
    - rewrite !map_map. apply map_ext_in. intros x X. symmetry. apply (g_add K HK (2 ^ 26) (2 ^ 25)); [apply P2; exact X|exact Bg|lia].
    - intros z Z. apply in_map_iff in Z as (x & <- & X). apply (gr_weak K (2 ^ 26 + 2 ^ 25)); [|lia]. apply (g_add K HK); [apply P2; exact X|exact Bg|lia]. }
  destruct M1 as [M1 A1], M2 as [M2 A2]. rewrite M1, M2.
  set (a1 := map (fun x => n_sub x bias) d1) in *. set (a2 := map (fun x => n_add x bias) d2) in *.
  assert (La1 : (Z.of_nat (length a1) <= 2 ^ 24)%Z) by (unfold a1; rewrite map_length; lia).
  assert (La2 : (Z.of_nat (length a2) <= 2 ^ 24)%Z) by (unfold a2; rewrite map_length; lia).
  clearbody a1 a2. clear M1 M2 P1 P2.
  destruct (fill_exact K (2 ^ 27) a1 HK2 ltac:(lia) A1 La1 ltac:(lia)) as [E1 F1]. destruct (fill_exact K (2 ^ 27) a2 HK2 ltac:(lia) A2 La2 ltac:(lia)) as [E2 F2].
  rewrite E1, E2. set (b1 := fill_nan a1) in *. set (b2 := fill_nan a2) in *. clearbody b1 b2. rewrite !map_length.
  set (body := fun (i : nat) (r : list F64) => do m <- np_min (slice (i - w) (i + 1) b2); Ok (upd i (n_sub (nget b1 i) m) r)).
  set (bodyX := fun (i : nat) (r : list XR) => do m <- np_min (slice (i - w) (i + 1) (V b2)); Ok (upd i (n_sub (nget (V b1) i) m) r)).
  assert (BB : forall i r, bodyX i (V r) = match body i r with Ok r' => Ok (V r') | Err e => Err e end).
  { intros i r. unfold body, bodyX. rewrite slice_V, min_V. destruct (np_min (slice (i - w) (i + 1) b2)) as [m|e] eqn:Em; [|reflexivity]. cbn [bind].
    rewrite nget_V. rewrite <- upd_V. f_equal. f_equal. symmetry.
    apply (g_sub K HK (2 ^ 27 + 2 ^ K) (2 ^ 27 + 2 ^ K)); [apply nget_gr; exact F1|apply F2; apply (slice_in b2 (i - w) (i + 1)); apply min_in; exact Em|lia]. }
  assert (FR : forall idx r, for_range_res idx bodyX (V r) = match for_range_res idx body r with Ok r' => Ok (V r') | Err e => Err e end).
  { induction idx as [|i idx IH]; intros r; [reflexivity|]. cbn [for_range_res]. rewrite BB. destruct (body i r) as [r'|e]; [|reflexivity]. cbn [bind]. apply IH. }
  assert (Z0 : f_val (zero : F64) = (zero : XR)) by (apply (val_ofZ _ F64sem 0); cbn; discriminate).
  assert (RP : repeat (zero : XR) (length b1) = V (repeat zero (length b1))) by (symmetry; apply rep_V; exact Z0).
  rewrite RP, FR. destruct (for_range_res _ body _) as [r|e]; [|reflexivity]. cbn [bind].
  assert (CL : map (fun x : XR => if n_ltb x zero then zero else x) (V r) = V (map (fun x => if n_ltb x zero then zero else x) r)).
  { rewrite !map_map. apply map_ext. intros x. rewrite <- Z0, V_ltb. destruct (n_ltb x zero); reflexivity. }
  rewrite CL, !map_length. f_equal.
  replace (repeat (n_nan : XR) (Nat.min w (length r))) with (V (repeat n_nan (Nat.min w (length r)))) by (apply rep_V; reflexivity).
  apply upd_slice_V.
Qed.

Lemma plus_each_spec q c rc l : (0 <= q <= 40)%Z -> in_steps q 23 c -> f_val c = XFin rc -> all_in_steps q 23 l ->
  all_in_steps q 24 (plus_each c l) /\ numbers (plus_each c l) = off rc (numbers l).
Proof.
  intros Hq Hc Ec H. unfold all_in_steps, numbers, plus_each, off.
  assert (A : forall x, In x l -> f_val (n_add x c) = n_add (f_val x : XR) (f_val c : XR) /\ gr q (2 ^ 24) (f_val (n_add x c))).
  { intros x X. apply (g_add q ltac:(lia) (2 ^ 23) (2 ^ 23)); [apply in_steps_gr, H, X|apply in_steps_gr, Hc|lia]. }
  split.
  - intros y Y. apply in_map_iff in Y as (x & <- & X). destruct (A x X) as [_ [G|G]]; [left|right; exact G]. rewrite <- V_isnan, G. reflexivity.
  - rewrite !map_map. apply map_ext_in. intros x X. rewrite <- Ec. apply A, X.
Qed.
Lemma in_steps_more q x : in_steps q 23 x -> in_steps q 24 x.
Proof. intros [H|(z & A & H)]; [left; exact H|right]. exists z. split; [lia|exact H]. Qed.

Section Offsets.
Variables (q : Z) (d e gT gR : F64) (rd re : R) (tx_min tx_max rx_min rx_max : list F64) (w : nat).
Hypothesis Hq : (0 <= q <= 40)%Z.
Hypothesis Hd : f_val d = XFin rd.
Hypothesis He : f_val e = XFin re.
Hypothesis HS : all_in_steps q 23 (d :: e :: gT :: gR :: tx_min ++ tx_max ++ rx_min ++ rx_max).
Hypothesis HL : forall l, In l [tx_min; tx_max; rx_min; rx_max] -> (Z.of_nat (length l) <= 2 ^ 24)%Z.
Lemma offsets_as_exact :
  res_numbers (calc_A_min_max tx_min tx_max rx_min rx_max gT gR w) =
    calc_A_min_max (numbers tx_min) (numbers tx_max) (numbers rx_min) (numbers rx_max) (f_val gT : XR) (f_val gR) w /\
  res_numbers (calc_A_min_max (plus_each d tx_min) (plus_each d tx_max) (plus_each e rx_min) (plus_each e rx_max) gT gR w) =
    calc_A_min_max (off rd (numbers tx_min)) (off rd (numbers tx_max)) (off re (numbers rx_min)) (off re (numbers rx_max)) (f_val gT : XR) (f_val gR) w.
Proof using Hq Hd He HS HL.
  assert (S1 : all_in_steps q 23 tx_min) by (intros x X; apply HS; do 4 right; rewrite !in_app_iff; auto).
  assert (S2 : all_in_steps q 23 tx_max) by (intros x X; apply HS; do 4 right; rewrite !in_app_iff; auto).
  assert (S3 : all_in_steps q 23 rx_min) by (intros x X; apply HS; do 4 right; rewrite !in_app_iff; auto).
  assert (S4 : all_in_steps q 23 rx_max) by (intros x X; apply HS; do 4 right; rewrite !in_app_iff; auto).
  assert (ST : in_steps q 23 gT) by (apply HS; cbn; auto). assert (SR : in_steps q 23 gR) by (apply HS; cbn; auto).
  assert (SD : in_steps q 23 d) by (apply HS; cbn; auto). assert (SE : in_steps q 23 e) by (apply HS; cbn; auto).
  destruct (plus_each_spec q d rd tx_min Hq SD Hd S1) as [P1 E1]. destruct (plus_each_spec q d rd tx_max Hq SD Hd S2) as [P2 E2].
  destruct (plus_each_spec q e re rx_min Hq SE He S3) as [P3 E3]. destruct (plus_each_spec q e re rx_max Hq SE He S4) as [P4 E4].
  split.
  - symmetry. apply (min_max_exact q); [exact Hq| |exact HL]. intros x [<-|[<-|X]]; [apply in_steps_more; exact ST|apply in_steps_more; exact SR|].
    apply in_steps_more. apply HS. do 4 right. exact X.
  - rewrite <- E1, <- E2, <- E3, <- E4. symmetry. apply (min_max_exact q); [exact Hq| |].
    + intros x [<-|[<-|X]]; [apply in_steps_more; exact ST|apply in_steps_more; exact SR|]. rewrite !in_app_iff in X.
      destruct X as [X|[X|[X|X]]]; [apply P1|apply P2|apply P3|apply P4]; exact X.
    + unfold plus_each. intros l X. cbn [In] in X. destruct X as [<-|[<-|[<-|[<-|[]]]]]; rewrite map_length; apply HL; cbn; auto.
Qed.
Lemma even_offset_float k : (rd - re = 2 * IZR k)%R ->
  res_numbers (calc_A_min_max (plus_each d tx_min) (plus_each d tx_max) (plus_each e rx_min) (plus_each e rx_max) gT gR w) =
  res_numbers (calc_A_min_max tx_min tx_max rx_min rx_max gT gR w).
Proof using Hq Hd He HS HL. intros H. destruct offsets_as_exact as [-> ->]. apply (min_max_shift_even rd re k). exact H. Qed.
Lemma complete_offset_float : (forall x, In x (gT :: gR :: tx_min ++ tx_max ++ rx_min ++ rx_max) -> n_isnan x = false) ->
  res_numbers (calc_A_min_max (plus_each d tx_min) (plus_each d tx_max) (plus_each e rx_min) (plus_each e rx_max) gT gR w) =
  res_numbers (calc_A_min_max tx_min tx_max rx_min rx_max gT gR w).
Proof using Hq Hd He HS HL.
  intros H. destruct offsets_as_exact as [-> ->].
  assert (FF : forall x, In x (gT :: gR :: tx_min ++ tx_max ++ rx_min ++ rx_max) -> n_isnan (f_val x : XR) = false /\ n_isinf (f_val x : XR) = false).
  { intros x X. pose proof (H x X) as N. destruct (HS x) as [Q|(z & _ & Q)]; [do 2 right; exact X|congruence|]. rewrite Q. split; reflexivity. }
  apply min_max_shift_complete.
  - intros x X. unfold numbers in X. rewrite <- !map_app in X. apply in_map_iff in X as (y & <- & Y). apply FF. right. right. exact Y.
  - apply FF. left. reflexivity.
  - apply FF. right. left. reflexivity.
Qed.
End Offsets.
