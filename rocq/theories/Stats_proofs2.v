(** * Proofs about the validation metrics: rates and Matthews correlation *)
From Coq Require Import List ZArith Bool Lia Reals Lra Psatz.
From Flocq Require Import Core.Raux.
From Verif Require Import Base Num NumF64 NumList NpOps RealSpec RealStat Stats_model Stats_spec Stats_proofs.
Import ListNotations.
Local Open Scope nat_scope.

Lemma ofnat_XR n : (n_ofnat n : XR) = XFin (INR n).
Proof. unfold n_ofnat. change (n_ofZ (Z.of_nat n) : XR) with (XFin (IZR (Z.of_nat n)) : XR). rewrite <- INR_IZR_INZ. reflexivity. Qed.

Lemma ratio_XR_zero : (ratio 0 0 : XR) = XNaN.
Proof. unfold ratio. rewrite !ofnat_XR. change (n_div (XFin (INR 0) : XR) (XFin (INR 0) : XR)) with (xdiv (XFin 0) (XFin 0)).
  unfold xdiv. rewrite Req_bool_true by auto. rewrite Rcompare_Eq by auto. reflexivity. Qed.
Lemma ratio_XR a b : b <> 0 -> (ratio a b : XR) = XFin (INR a / INR b)%R.
Proof.
  intros H. unfold ratio. rewrite !ofnat_XR.
  change (n_div (XFin (INR a) : XR) (XFin (INR b) : XR)) with (xdiv (XFin (INR a)) (XFin (INR b))).
  unfold xdiv. rewrite Req_bool_false; [reflexivity|]. apply not_0_INR; auto.
Qed.
Lemma ratio_complement a b n : a + b = n ->
  (n = 0 -> (ratio a n : XR) = XNaN /\ (ratio b n : XR) = XNaN) /\
  (n <> 0 -> exists x, (ratio a n : XR) = XFin x /\ (ratio b n : XR) = XFin (1 - x)%R /\ (0 <= x <= 1)%R).
Proof.
  intros H. split.
  - intros ->. assert (a = 0) as -> by lia. assert (b = 0) as -> by lia. split; apply ratio_XR_zero.
  - intros Hn. exists (INR a / INR n)%R. rewrite !ratio_XR by auto.
    assert (HN : (0 < INR n)%R) by (apply lt_0_INR; lia). assert (HS : (INR a + INR b = INR n)%R) by (rewrite <- plus_INR; f_equal; auto).
    pose proof (pos_INR a). pose proof (pos_INR b).
    split; [reflexivity|]. split; [apply f_equal; field_simplify_eq; lra|].
    split; apply (Rmult_le_reg_r (INR n)); auto; unfold Rdiv; rewrite ?Rmult_assoc, ?Rinv_l by lra; lra.
Qed.

Lemma wd_rates (r p : list XR) n : length r = n -> length p = n ->
  exists w, calc_wet_dry_performance_metrics (mk_arr [n] r) (mk_arr [n] p) = Ok w /\
  (N_wet_reference w = 0 -> wd_true_wet_rate w = XNaN /\ wd_missed_wet_rate w = XNaN) /\
  (N_wet_reference w <> 0 -> exists x, wd_true_wet_rate w = XFin x /\ wd_missed_wet_rate w = XFin (1 - x)%R /\ (0 <= x <= 1)%R /\
     x = (INR (N_true_wet w) / INR (N_wet_reference w))%R) /\
  (N_dry_reference w = 0 -> wd_true_dry_rate w = XNaN /\ wd_false_wet_rate w = XNaN) /\
  (N_dry_reference w <> 0 -> exists x, wd_true_dry_rate w = XFin x /\ wd_false_wet_rate w = XFin (1 - x)%R /\ (0 <= x <= 1)%R /\
     x = (INR (N_true_dry w) / INR (N_dry_reference w))%R).
Proof.
  intros Hr Hp. assert (E : length r = length p) by congruence. rewrite (wd_eval r p n [] E).
  eexists. split; [reflexivity|].
  cbn [N_wet_reference N_dry_reference wd_true_wet_rate wd_missed_wet_rate wd_true_dry_rate wd_false_wet_rate N_true_wet N_true_dry].
  pose proof (marginals zero (valid_pairs r p)) as (M1 & M2 & _).
  destruct (ratio_complement _ _ _ M1) as [A1 A2]. destruct (ratio_complement _ _ _ M2) as [B1 B2].
  split; [exact A1|]. split.
  - intros H. destruct (A2 H) as (x & E1 & E2 & E3). exists x. split; auto. split; auto. split; auto.
    rewrite ratio_XR in E1 by auto. congruence.
  - split; [exact B1|]. intros H. destruct (B2 H) as (x & E1 & E2 & E3). exists x. split; auto. split; auto. split; auto.
    rewrite ratio_XR in E1 by auto. congruence.
Qed.

(** ** Matthews correlation, exact arithmetic *)

Lemma mcc_bound (a b c d : R) : (0 <= a -> 0 <= b -> 0 <= c -> 0 <= d ->
  (a * b - c * d) * (a * b - c * d) <= (a + c) * (a + d) * (b + c) * (b + d))%R.
Proof.
  intros. assert (0 <= a * b)%R by nra. assert (0 <= c * d)%R by nra.
  assert (0 <= (a*b) * (c*d))%R by nra.
  assert (P1 : (0 <= a * a * (c * d))%R) by (apply Rmult_le_pos; nra).
  assert (P2 : (0 <= b * b * (c * d))%R) by (apply Rmult_le_pos; nra).
  assert (P3 : (0 <= c * c * (a * b))%R) by (apply Rmult_le_pos; nra).
  assert (P4 : (0 <= d * d * (a * b))%R) by (apply Rmult_le_pos; nra).
  assert (Q : (0 <= a * b * (a * c + a * d + b * c + b * d))%R) by (apply Rmult_le_pos; nra).
  assert (Q' : (0 <= c * d * (a * c + a * d + b * c + b * d))%R) by (apply Rmult_le_pos; nra).
  nra.
Qed.

Lemma mcc_range (tp tn fp fn : R) : (0 <= tp -> 0 <= tn -> 0 <= fp -> 0 <= fn ->
  0 < (tp + fp) * (tp + fn) * (tn + fp) * (tn + fn) -> -1 <= mcc_real tp tn fp fn <= 1)%R.
Proof.
  intros H1 H2 H3 H4 HP. unfold mcc_real. set (P := ((tp + fp) * (tp + fn) * (tn + fp) * (tn + fn))%R) in *.
  pose proof (mcc_bound tp tn fp fn H1 H2 H3 H4) as B. fold P in B.
  assert (HS : (0 < sqrt P)%R) by (apply sqrt_lt_R0; auto).
  pose proof (sqrt_sqrt P (Rlt_le _ _ HP)) as SS.
  set (x := (tp * tn - fp * fn)%R) in *. set (s := sqrt P) in *.
  split; apply (Rmult_le_reg_r s); auto; unfold Rdiv; rewrite Rmult_assoc, Rinv_l by lra; nra.
Qed.

Lemma sqrt_XR n : n_sqrt (n_ofnat n : XR) = (XFin (sqrt (INR n)) : XR).
Proof.
  rewrite ofnat_XR. change (n_sqrt (XFin (INR n) : XR)) with (xsqrt (XFin (INR n))). unfold xsqrt.
  rewrite Rlt_bool_false; [reflexivity|apply pos_INR].
Qed.
Lemma matthews_XR tp tn fp fn :
  (matthews tp tn fp fn : XR) = xdiv (XFin (INR tp * INR tn - INR fp * INR fn)%R)
    (XFin (sqrt (INR (tp + fp)) * sqrt (INR (tp + fn)) * sqrt (INR (tn + fp)) * sqrt (INR (tn + fn)))%R).
Proof.
  unfold matthews. rewrite !sqrt_XR.
  change (n_ofZ (Z.of_nat tp * Z.of_nat tn - Z.of_nat fp * Z.of_nat fn) : XR) with (XFin (IZR (Z.of_nat tp * Z.of_nat tn - Z.of_nat fp * Z.of_nat fn)) : XR).
  rewrite minus_IZR, !mult_IZR, <- !INR_IZR_INZ. reflexivity.
Qed.
Lemma matthews_undefined tp tn fp fn : tp + fp = 0 \/ tp + fn = 0 \/ tn + fp = 0 \/ tn + fn = 0 -> (matthews tp tn fp fn : XR) = XNaN.
Proof.
  intros H. rewrite matthews_XR.
  assert (N : (INR tp * INR tn - INR fp * INR fn = 0)%R).
  { destruct H as [H|[H|[H|H]]]; apply Nat.eq_add_0 in H; destruct H as [-> ->]; simpl; ring. }
  assert (D : (sqrt (INR (tp + fp)) * sqrt (INR (tp + fn)) * sqrt (INR (tn + fp)) * sqrt (INR (tn + fn)) = 0)%R).
  { destruct H as [-> |[-> |[-> | ->]]]; change (INR 0) with 0%R; rewrite sqrt_0; ring. }
  rewrite N, D. unfold xdiv. rewrite Req_bool_true, Rcompare_Eq by auto. reflexivity.
Qed.
Lemma matthews_defined tp tn fp fn : tp + fp <> 0 -> tp + fn <> 0 -> tn + fp <> 0 -> tn + fn <> 0 ->
  (matthews tp tn fp fn : XR) = XFin (mcc_real (INR tp) (INR tn) (INR fp) (INR fn)) /\
  (-1 <= mcc_real (INR tp) (INR tn) (INR fp) (INR fn) <= 1)%R.
Proof.
  intros H1 H2 H3 H4. rewrite matthews_XR.
  assert (L : forall n, n <> 0 -> (0 < INR n)%R) by (intros; apply lt_0_INR; lia).
  pose proof (L _ H1) as L1. pose proof (L _ H2) as L2. pose proof (L _ H3) as L3. pose proof (L _ H4) as L4.
  pose proof (pos_INR tp). pose proof (pos_INR tn). pose proof (pos_INR fp). pose proof (pos_INR fn).
  unfold mcc_real. rewrite <- !sqrt_mult by (repeat apply Rmult_le_pos; lra). rewrite !plus_INR in *.
  assert (P : (0 < (INR tp + INR fp) * (INR tp + INR fn) * (INR tn + INR fp) * (INR tn + INR fn))%R) by (repeat apply Rmult_lt_0_compat; auto).
  split; [|apply mcc_range; auto].
  unfold xdiv. rewrite Req_bool_false; [reflexivity|]. pose proof (sqrt_lt_R0 _ P). lra.
Qed.

Lemma wd_matthews (r p : list XR) n : length r = n -> length p = n ->
  exists w, calc_wet_dry_performance_metrics (mk_arr [n] r) (mk_arr [n] p) = Ok w /\
  let tp := N_true_wet w in let tn := N_true_dry w in let fp := N_false_wet w in let fn := N_missed_wet w in
  let m := wd_matthews_correlation w in
  (tp + fp = 0 -> m = XFin 0) /\
  (tp + fp <> 0 -> tp + fn = 0 \/ tn + fp = 0 \/ tn + fn = 0 -> m = XNaN) /\
  (tp + fp <> 0 -> tp + fn <> 0 -> tn + fp <> 0 -> tn + fn <> 0 ->
     m = XFin (mcc_real (INR tp) (INR tn) (INR fp) (INR fn)) /\ (-1 <= mcc_real (INR tp) (INR tn) (INR fp) (INR fn) <= 1)%R) /\
  (fp = 0 -> fn = 0 -> tp <> 0 -> tn <> 0 -> m = XFin 1) /\
  (tp = 0 -> tn = 0 -> fp <> 0 -> fn <> 0 -> m = XFin (-1)).
Proof.
  intros Hr Hp. assert (E : length r = length p) by congruence. rewrite (wd_eval r p n [] E).
  eexists. split; [reflexivity|]. cbn [N_true_wet N_true_dry N_false_wet N_missed_wet wd_matthews_correlation].
  pose proof (marginals zero (valid_pairs r p)) as (_ & _ & M3 & _). rewrite <- M3. clear M3.
  generalize (count (true_wet zero) (valid_pairs r p)) as tp. generalize (count (true_dry zero) (valid_pairs r p)) as tn.
  generalize (count (false_wet zero) (valid_pairs r p)) as fp. generalize (count (missed_wet zero) (valid_pairs r p)) as fn.
  clear. intros fn fp tn tp.
  assert (D : tp + fp <> 0 -> tp + fn <> 0 -> tn + fp <> 0 -> tn + fn <> 0 ->
     (if tp + fp =? 0 then zero else if n_isinf (matthews tp tn fp fn : XR) then zero else matthews tp tn fp fn) =
     (XFin (mcc_real (INR tp) (INR tn) (INR fp) (INR fn)) : XR) /\ (-1 <= mcc_real (INR tp) (INR tn) (INR fp) (INR fn) <= 1)%R).
  { intros H1 H2 H3 H4. destruct (matthews_defined tp tn fp fn H1 H2 H3 H4) as [-> B].
    rewrite (proj2 (Nat.eqb_neq _ _) H1). split; auto. }
  split; [intros ->; reflexivity|]. split.
  { intros H1 H. rewrite (proj2 (Nat.eqb_neq _ _) H1). rewrite (matthews_undefined tp tn fp fn) by tauto. reflexivity. }
  split; [exact D|]. split.
  - intros -> -> Ht Hn. destruct D as [-> _]; try lia. apply f_equal. unfold mcc_real.
    change (INR 0) with 0%R. rewrite !Rplus_0_r, Rmult_0_l, Rminus_0_r.
    assert (P : (0 < INR tp * INR tn)%R) by (apply Rmult_lt_0_compat; apply lt_0_INR; lia).
    replace (INR tp * INR tp * INR tn * INR tn)%R with ((INR tp * INR tn) * (INR tp * INR tn))%R by ring.
    rewrite sqrt_square by lra. unfold Rdiv. try rewrite <- Ropp_mult_distr_l. rewrite ?Rminus_0_l, <- ?Ropp_mult_distr_l, Rinv_r by lra. ring.
  - intros -> -> Hf Hm. destruct D as [-> _]; try lia. apply f_equal. unfold mcc_real.
    change (INR 0) with 0%R. rewrite !Rplus_0_l, Rmult_0_l.
    assert (P : (0 < INR fp * INR fn)%R) by (apply Rmult_lt_0_compat; apply lt_0_INR; lia).
    replace (INR fp * INR fn * INR fp * INR fn)%R with ((INR fp * INR fn) * (INR fp * INR fn))%R by ring.
    rewrite sqrt_square by lra. unfold Rdiv. try rewrite <- Ropp_mult_distr_l. rewrite ?Rminus_0_l, <- ?Ropp_mult_distr_l, Rinv_r by lra. ring.
Qed.

(** ** Matthews correlation for any number format (float64) *)
Section Any.
Context {O : numops} (S : numsem O).

Lemma ofnat_val k : (Z.of_nat k <= 2 ^ 53)%Z -> val S (n_ofnat k) = XFin (INR k).
Proof. intros H. unfold n_ofnat. rewrite (val_ofZ _ S) by lia. rewrite <- INR_IZR_INZ. reflexivity. Qed.
Lemma rnd_int z : (Z.abs z <= 2 ^ 53)%Z -> rnd S (XFin (IZR z)) = XFin (IZR z).
Proof. intros H. rewrite <- (val_ofZ _ S z H). apply (rnd_val _ S). Qed.
Definition ge1 (x : xr) : Prop := xleb (XFin 1) x = true.
Lemma rnd_ge1 x : ge1 x -> ge1 (rnd S x).
Proof. unfold ge1. intros H. apply (rnd_mono _ S) in H. rewrite (rnd_int 1) in H by (simpl; lia). exact H. Qed.
Lemma sqrt_ofnat_0 : val S (n_sqrt (n_ofnat 0)) = XFin 0.
Proof. rewrite (val_sqrt _ S), ofnat_val by (simpl; lia). cbn. rewrite Rlt_bool_false by lra. rewrite sqrt_0. apply (rnd_int 0). simpl; lia. Qed.
Lemma sqrt_ofnat_ge1 k : k <> 0 -> (Z.of_nat k <= 2 ^ 53)%Z -> ge1 (val S (n_sqrt (n_ofnat k))).
Proof.
  intros H1 H2. rewrite (val_sqrt _ S), ofnat_val by auto. cbn [xsqrt]. assert (1 <= INR k)%R by (change 1%R with (INR 1); apply le_INR; lia).
  rewrite Rlt_bool_false by lra. apply rnd_ge1. unfold ge1. cbn [xleb]. apply Rle_bool_true. rewrite <- sqrt_1. apply sqrt_le_1; lra.
Qed.
Lemma mul_ge1 (x y : O) : ge1 (val S x) -> ge1 (val S y) -> ge1 (val S (n_mul x y)).
Proof.
  intros Hx Hy. rewrite (val_mul _ S). apply rnd_ge1. unfold ge1 in *. destruct (val S x) as [| |a|], (val S y) as [| |b|]; try discriminate; cbn in *; auto.
  - destruct (Rle_bool_spec 1 a); [|discriminate]. destruct (Rle_bool_spec 1 b); [|discriminate]. apply Rle_bool_true. nra.
  - destruct (Rle_bool_spec 1 a); [|discriminate]. rewrite Rcompare_Gt by lra. reflexivity.
  - destruct (Rle_bool_spec 1 b); [|discriminate]. rewrite Rcompare_Gt by lra. reflexivity.
Qed.
(** zero times a number that is zero or at least one and not infinite is zero *)
Definition zero_or_pos (k : nat) (x : xr) : Prop := exists r, x = XFin r /\ (if k =? 0 then r = 0 else 1 <= r <= IZR (2 ^ 13))%R.
Lemma sqrt_ofnat_fin k : (Z.of_nat k <= 2 ^ 26)%Z -> zero_or_pos k (val S (n_sqrt (n_ofnat k))).
Proof.
  intros H. unfold zero_or_pos. destruct (Nat.eqb_spec k 0) as [->|Hk].
  - exists 0%R. split; auto. apply sqrt_ofnat_0.
  - pose proof (sqrt_ofnat_ge1 k Hk ltac:(lia)) as G. rewrite (val_sqrt _ S), ofnat_val in * by lia. cbn [xsqrt] in *.
    assert (K : (1 <= INR k)%R) by (change 1%R with (INR 1); apply le_INR; lia).
    assert (K' : (INR k <= IZR (2 ^ 13) * IZR (2 ^ 13))%R) by (rewrite <- mult_IZR, INR_IZR_INZ; apply IZR_le; lia).
    rewrite Rlt_bool_false in * by lra.
    assert (U : xleb (rnd S (XFin (sqrt (INR k)))) (XFin (IZR (2 ^ 13))) = true).
    { rewrite <- (rnd_int (2 ^ 13)) by (simpl; lia). apply (rnd_mono _ S). cbn [xleb]. apply Rle_bool_true.
      assert (0 <= IZR (2 ^ 13))%R by (apply IZR_le; lia).
      rewrite <- (sqrt_square (IZR (2 ^ 13))) by auto. apply sqrt_le_1; nra. }
    unfold ge1 in G. destruct (rnd S (XFin (sqrt (INR k)))) as [| |v|]; try discriminate. exists v. split; auto.
    cbn [xleb] in G, U. destruct (Rle_bool_spec 1 v); [|discriminate]. destruct (Rle_bool_spec v (IZR (2 ^ 13))); [|discriminate]. lra.
Qed.
Lemma mul_fin (x y : O) r1 r2 B1 B2 : (0 <= B1 -> 0 <= B2 -> B1 * B2 <= 2 ^ 53)%Z -> (0 <= B1)%Z -> (0 <= B2)%Z ->
  val S x = XFin r1 -> val S y = XFin r2 -> (0 <= r1 <= IZR B1)%R -> (0 <= r2 <= IZR B2)%R ->
  exists r, val S (n_mul x y) = XFin r /\ (0 <= r <= IZR (B1 * B2))%R.
Proof.
  intros HB HB1 HB2 Hx Hy H1 H2. specialize (HB HB1 HB2). rewrite (val_mul _ S), Hx, Hy. cbn [xmul].
  assert (L : xleb (XFin 0) (rnd S (XFin (r1 * r2))) = true).
  { change 0%R with (IZR 0). rewrite <- (rnd_int 0) by (simpl; lia). apply (rnd_mono _ S). cbn. apply Rle_bool_true. apply Rmult_le_pos; lra. }
  assert (U : xleb (rnd S (XFin (r1 * r2))) (XFin (IZR (B1 * B2))) = true).
  { rewrite <- (rnd_int (B1 * B2)) by nia. apply (rnd_mono _ S). cbn. apply Rle_bool_true. rewrite mult_IZR. apply Rmult_le_compat; lra. }
  destruct (rnd S (XFin (r1 * r2))) as [| |v|]; try discriminate. exists v. split; auto. cbn in L, U.
  destruct (Rle_bool_spec 0 v); [|discriminate]. destruct (Rle_bool_spec v (IZR (B1 * B2))); [|discriminate]. lra.
Qed.

(** a quotient with a divisor of at least one is finite *)
Lemma div_fin (x y : O) z : (Z.abs z <= 2 ^ 53)%Z -> val S x = XFin (IZR z) -> ge1 (val S y) ->
  n_isinf (n_div x y) = false /\ n_isnan (n_div x y) = false.
Proof.
  intros Hz Hx Hy. rewrite (val_isinf _ S), (val_isnan _ S). unfold ge1 in Hy.
  assert (NZ : val S y <> XFin 0).
  { intros E. rewrite E in Hy. cbn in Hy. destruct (Rle_bool_spec 1 0); [lra|discriminate]. }
  rewrite (val_div _ S) by auto. rewrite Hx.
  assert (B : exists q, xdiv (XFin (IZR z)) (val S y) = XFin q /\ (IZR (- Z.abs z) <= q <= IZR (Z.abs z))%R).
  { rewrite opp_IZR, abs_IZR. destruct (val S y) as [| |b|]; try discriminate.
    - cbn in Hy. destruct (Rle_bool_spec 1 b) as [Hb|]; [|discriminate]. cbn. rewrite Req_bool_false by lra. eexists. split; [reflexivity|].
      apply Rabs_le_inv. unfold Rdiv. rewrite Rabs_mult, Rabs_inv, (Rabs_pos_eq b) by lra.
      pose proof (Rabs_pos (IZR z)). rewrite <- (Rmult_1_r (Rabs (IZR z))) at 2. apply Rmult_le_compat_l; auto.
      rewrite <- Rinv_1. apply Rinv_le; lra.
    - cbn. eexists. split; [reflexivity|]. pose proof (Rabs_pos (IZR z)). lra. }
  destruct B as (q & -> & Hq).
  assert (L : xleb (XFin (IZR (- Z.abs z))) (rnd S (XFin q)) = true).
  { rewrite <- (rnd_int (- Z.abs z)) by lia. apply (rnd_mono _ S). cbn. apply Rle_bool_true. lra. }
  assert (U : xleb (rnd S (XFin q)) (XFin (IZR (Z.abs z))) = true).
  { rewrite <- (rnd_int (Z.abs z)) by lia. apply (rnd_mono _ S). cbn. apply Rle_bool_true. lra. }
  destruct (rnd S (XFin q)); try discriminate; auto.
Qed.

Lemma mul_zero_iff (x y : O) r1 r2 B1 B2 : (B1 * B2 <= 2 ^ 53)%Z -> (0 <= B1)%Z -> (0 <= B2)%Z ->
  val S x = XFin r1 -> val S y = XFin r2 -> (r1 = 0 \/ 1 <= r1 <= IZR B1)%R -> (r2 = 0 \/ 1 <= r2 <= IZR B2)%R ->
  exists r, val S (n_mul x y) = XFin r /\ (r = 0 /\ (r1 = 0 \/ r2 = 0) \/ 1 <= r <= IZR (B1 * B2) /\ r1 <> 0 /\ r2 <> 0)%R.
Proof.
  intros HB HB1 HB2 Hx Hy H1 H2.
  assert (0 <= IZR B1)%R by (apply IZR_le; auto). assert (0 <= IZR B2)%R by (apply IZR_le; auto).
  destruct (Req_dec r1 0) as [Z1|Z1]; [|destruct (Req_dec r2 0) as [Z2|Z2]].
  - exists 0%R. split; [|left; auto]. rewrite (val_mul _ S), Hx, Hy, Z1. cbn [xmul]. rewrite Rmult_0_l. apply (rnd_int 0). simpl; lia.
  - exists 0%R. split; [|left; auto]. rewrite (val_mul _ S), Hx, Hy, Z2. cbn [xmul]. rewrite Rmult_0_r. apply (rnd_int 0). simpl; lia.
  - destruct H1 as [H1|H1]; [congruence|]. destruct H2 as [H2|H2]; [congruence|].
    destruct (mul_fin x y r1 r2 B1 B2) as (r & Er & Br); auto; try lra.
    exists r. split; auto. right. split; auto.
    assert (G : ge1 (val S (n_mul x y))).
    { apply mul_ge1; unfold ge1; [rewrite Hx|rewrite Hy]; cbn; apply Rle_bool_true; lra. }
    rewrite Er in G. unfold ge1 in G. cbn in G. destruct (Rle_bool_spec 1 r); [|discriminate]. lra.
Qed.

(** up to 2^26 pairs (products of two counts are then exact) *)
Lemma matthews_float tp tn fp fn : (Z.of_nat (tp + tn + fp + fn) <= 2 ^ 26)%Z ->
  n_isinf (matthews tp tn fp fn : O) = false /\
  (n_isnan (matthews tp tn fp fn : O) = true <-> tp + fp = 0 \/ tp + fn = 0 \/ tn + fp = 0 \/ tn + fn = 0).
Proof.
  intros H. unfold matthews.
  destruct (sqrt_ofnat_fin (tp + fp)) as (ra & Ea & Ba); [lia|]. destruct (sqrt_ofnat_fin (tp + fn)) as (rb & Eb & Bb); [lia|].
  destruct (sqrt_ofnat_fin (tn + fp)) as (rc & Ec & Bc); [lia|]. destruct (sqrt_ofnat_fin (tn + fn)) as (rd & Ed & Bd); [lia|].
  set (a := n_sqrt (n_ofnat (tp + fp))) in *. set (b := n_sqrt (n_ofnat (tp + fn))) in *.
  set (c := n_sqrt (n_ofnat (tn + fp))) in *. set (d := n_sqrt (n_ofnat (tn + fn))) in *.
  set (z := (Z.of_nat tp * Z.of_nat tn - Z.of_nat fp * Z.of_nat fn)%Z).
  assert (Hz : (Z.abs z <= 2 ^ 53)%Z) by (unfold z; nia).
  assert (CV : forall k r, (if k =? 0 then r = 0 else 1 <= r <= IZR (2 ^ 13))%R -> (r = 0 \/ 1 <= r <= IZR (2 ^ 13))%R /\ (r = 0%R <-> k = 0)).
  { intros k r Hk. destruct (Nat.eqb_spec k 0); split; auto; [split; auto|split; intros; [lra|lia]]. }
  destruct (CV _ _ Ba) as [Ba' Za]. destruct (CV _ _ Bb) as [Bb' Zb]. destruct (CV _ _ Bc) as [Bc' Zc]. destruct (CV _ _ Bd) as [Bd' Zd].
  destruct (mul_zero_iff a b ra rb (2 ^ 13) (2 ^ 13)) as (r1 & E1 & B1); auto; try lia.
  assert (B1' : (r1 = 0 \/ 1 <= r1 <= IZR (2 ^ 13 * 2 ^ 13))%R) by (destruct B1 as [[B1 _]|[B1 _]]; [left|right]; exact B1).
  destruct (mul_zero_iff (n_mul a b) c r1 rc (2 ^ 13 * 2 ^ 13) (2 ^ 13)) as (r2 & E2 & B2); auto; try lia.
  assert (B2' : (r2 = 0 \/ 1 <= r2 <= IZR (2 ^ 13 * 2 ^ 13 * 2 ^ 13))%R) by (destruct B2 as [[B2 _]|[B2 _]]; [left|right]; exact B2).
  destruct (mul_zero_iff (n_mul (n_mul a b) c) d r2 rd (2 ^ 13 * 2 ^ 13 * 2 ^ 13) (2 ^ 13)) as (r3 & E3 & B3); auto; try lia.
  assert (I1 : r1 = 0%R <-> ra = 0%R \/ rb = 0%R).
  { clear - B1. destruct B1 as [[Z B]|[Z [Na Nb]]]; split; intros K; auto; [lra|destruct K; contradiction]. }
  assert (I2 : r2 = 0%R <-> r1 = 0%R \/ rc = 0%R).
  { clear - B2. destruct B2 as [[Z B]|[Z [Na Nb]]]; split; intros K; auto; [lra|destruct K; contradiction]. }
  assert (I3 : r3 = 0%R <-> r2 = 0%R \/ rd = 0%R).
  { clear - B3. destruct B3 as [[Z B]|[Z [Na Nb]]]; split; intros K; auto; [lra|destruct K; contradiction]. }
  assert (ZZ : r3 = 0%R <-> tp + fp = 0 \/ tp + fn = 0 \/ tn + fp = 0 \/ tn + fn = 0).
  { rewrite I3, I2, I1, Za, Zb, Zc, Zd. clear. tauto. }
  destruct (Req_dec r3 0) as [Z3|Z3].
  - assert (z = 0)%Z as ->.
    { apply ZZ in Z3. unfold z. destruct Z3 as [Z3|[Z3|[Z3|Z3]]]; apply Nat.eq_add_0 in Z3; destruct Z3 as [-> ->]; simpl; lia. }
    rewrite Z3 in E3. destruct (val_div0 _ S (n_ofZ 0) _ E3) as [N _].
    assert (V : val S (n_div (n_ofZ 0) (n_mul (n_mul (n_mul a b) c) d)) = XNaN) by (apply N; right; apply (val_ofZ _ S); simpl; lia).
    rewrite (val_isinf _ S), (val_isnan _ S), V. cbn. split; [reflexivity|]. split; [intros _; apply ZZ; exact Z3|reflexivity].
  - destruct (div_fin (n_ofZ z) (n_mul (n_mul (n_mul a b) c) d) z) as [D1 D2]; auto.
    + apply (val_ofZ _ S); auto.
    + rewrite E3. unfold ge1. cbn. apply Rle_bool_true. destruct B3 as [[B3 _]|[[B3 _] _]]; [contradiction|exact B3].
    + rewrite D1, D2. split; auto. split; [discriminate|]. intros K. apply ZZ in K. congruence.
Qed.

Lemma wd_matthews_float (r p : list O) n : length r = n -> length p = n -> (Z.of_nat n <= 2 ^ 26)%Z ->
  exists w, calc_wet_dry_performance_metrics (mk_arr [n] r) (mk_arr [n] p) = Ok w /\
  let tp := N_true_wet w in let tn := N_true_dry w in let fp := N_false_wet w in let fn := N_missed_wet w in
  let m := wd_matthews_correlation w in
  n_isinf m = false /\ (tp + fp = 0 -> m = n_ofZ 0) /\
  (n_isnan m = true <-> tp + fp <> 0 /\ (tp + fn = 0 \/ tn + fp = 0 \/ tn + fn = 0)) /\
  (tp + fp <> 0 -> m = matthews tp tn fp fn).
Proof.
  intros Hr Hp Hn. assert (E : length r = length p) by congruence. rewrite (wd_eval r p n [] E).
  eexists. split; [reflexivity|]. cbn [N_true_wet N_true_dry N_false_wet N_missed_wet wd_matthews_correlation].
  pose proof (marginals zero (valid_pairs r p)) as (_ & _ & M3 & _ & M5). rewrite <- M3. clear M3.
  assert (HL : length (valid_pairs r p) <= n) by (pose proof (nan_count r p E); lia).
  revert M5. generalize (count (true_wet zero) (valid_pairs r p)) as tp. generalize (count (true_dry zero) (valid_pairs r p)) as tn.
  generalize (count (false_wet zero) (valid_pairs r p)) as fp. generalize (count (missed_wet zero) (valid_pairs r p)) as fn.
  intros fn fp tn tp M5.
  destruct (matthews_float tp tn fp fn) as [F1 F2]; [lia|]. rewrite F1.
  assert (NZ : n_isinf (zero : O) = false /\ n_isnan (zero : O) = false).
  { unfold zero. rewrite (val_isinf _ S), (val_isnan _ S), (val_ofZ _ S) by (simpl; lia). auto. }
  destruct (Nat.eqb_spec (tp + fp) 0) as [Z|Z].
  - split; [apply NZ|]. split; [reflexivity|]. split; [|tauto]. rewrite (proj2 NZ). split; [discriminate|tauto].
  - split; auto. split; [tauto|]. split; auto. rewrite F2. tauto.
Qed.
End Any.
