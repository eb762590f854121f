(** * Proofs about the Pearson correlation and the mean rain of false and missed wet pairs *)
From Coq Require Import List ZArith Bool Lia Reals Lra Psatz.
From Flocq Require Import Core.Raux.
From Verif Require Import Base Num NumF64 NumList NpOps RealSpec RealStat Stats_model Stats_spec Stats_proofs Stats_proofs2 Stats_proofs3.
Import ListNotations.
Local Open Scope R_scope.

(** sum of products of deviations *)

Lemma cauchy_schwarz {A} (f g : A -> R) l :
  rsum (map (fun q => f q * g q) l) * rsum (map (fun q => f q * g q) l) <= rsum (map (fun q => f q * f q) l) * rsum (map (fun q => g q * g q) l).
Proof.
  set (S := rsum (map (fun q => f q * g q) l)). set (FF := rsum (map (fun q => f q * f q) l)). set (GG := rsum (map (fun q => g q * g q) l)).
  assert (K : forall c d, 0 <= c * c * FF + 2 * c * d * S + d * d * GG).
  { intros c d. assert (E : rsum (map (fun q => (c * f q + d * g q) * (c * f q + d * g q)) l) = c * c * FF + 2 * c * d * S + d * d * GG).
    { rewrite (rsum_map_ext' _ (fun q => (c * c) * (f q * f q) + ((2 * c * d) * (f q * g q) + (d * d) * (g q * g q)))) by (intros; ring).
      rewrite !rsum_map_add, !rsum_map_scal. fold S FF GG. ring. }
    rewrite <- E. rewrite <- (map_map (fun q => c * f q + d * g q) (fun x => x * x)). apply rsum_sq_nonneg. }
  assert (F0 : 0 <= FF) by (pose proof (K 1 0); lra).
  destruct (Req_dec FF 0) as [Z|Z].
  - pose proof (K S (-1)) as K1. assert (G0 : 0 <= GG) by (pose proof (K 0 1); lra).
    destruct (Req_dec S 0) as [ZS|ZS]; [rewrite ZS, Z; lra|].
    pose proof (K (- (GG + 1) / (2 * S)) 1) as K2. rewrite Z in K2.
    replace (2 * (- (GG + 1) / (2 * S)) * 1 * S) with (- (GG + 1)) in K2 by (field; auto). lra.
  - pose proof (K (- S) FF) as K1. replace (- S * - S * FF + 2 * - S * FF * S + FF * FF * GG) with (FF * (FF * GG - S * S)) in K1 by ring.
    assert (0 < FF) by lra. apply Rnot_lt_le. intros L. assert (FF * (FF * GG - S * S) < 0); [|lra].
    apply (Rmult_lt_reg_l (/ FF)); [apply Rinv_0_lt_compat; auto|]. rewrite <- Rmult_assoc, Rinv_l, Rmult_1_l, Rmult_0_r by auto. lra.
Qed.

Lemma mul_centered ps : ps <> [] ->
  v_mul (centered (ofR (map fst ps))) (centered (ofR (map snd ps))) =
  ofR (map (fun q => (fst q - rmean (map fst ps)) * (snd q - rmean (map snd ps))) ps).
Proof.
  intros H. rewrite !centered_ofR by (apply map_nil_iff; auto).
  generalize (rmean (map fst ps)) as m1. generalize (rmean (map snd ps)) as m2. intros m2 m1. clear H.
  unfold v_mul, map2, ofR. induction ps as [|[x y] ps IH]; auto. cbn [map combine fst snd]. rewrite IH. reflexivity.
Qed.
Lemma mul_centered_same l : l <> [] ->
  v_mul (centered (ofR l)) (centered (ofR l)) = ofR (map (fun x => (x - rmean l) * (x - rmean l)) l).
Proof.
  intros H. rewrite !centered_ofR by auto. generalize (rmean l) as m. intros m. clear H.
  unfold v_mul, map2, ofR. induction l as [|x l IH]; auto. cbn [map combine fst snd]. rewrite IH. reflexivity.
Qed.

Definition fact_inv (n : nat) : XR := n_div one (n_ofnat (n - 1)).
Lemma fact_inv_1 : fact_inv 1 = XPInf.
Proof. unfold fact_inv. rewrite ofnat_XR. change (n_div one (XFin (INR (1 - 1)) : XR)) with (xdiv (XFin 1) (XFin 0)). unfold xdiv. rewrite Req_bool_true, Rcompare_Gt by lra. reflexivity. Qed.
Lemma fact_inv_gt n : (2 <= n)%nat -> fact_inv n = XFin (/ INR (n - 1)) /\ 0 < / INR (n - 1).
Proof.
  intros H. assert (0 < INR (n - 1)) by (apply lt_0_INR; lia). split; [|apply Rinv_0_lt_compat; auto].
  unfold fact_inv. rewrite ofnat_XR. change (n_div one (XFin (INR (n - 1)) : XR)) with (xdiv (XFin 1) (XFin (INR (n - 1)))).
  unfold xdiv. rewrite Req_bool_false by lra. apply f_equal. field. lra.
Qed.

Lemma cov_exact ps : ps <> [] ->
  np_cov (ofR (map fst ps)) (ofR (map snd ps)) = n_mul (XFin (sxy ps) : XR) (fact_inv (length ps)) /\
  np_cov (ofR (map fst ps)) (ofR (map fst ps)) = n_mul (XFin (sxx (map fst ps)) : XR) (fact_inv (length ps)) /\
  np_cov (ofR (map snd ps)) (ofR (map snd ps)) = n_mul (XFin (sxx (map snd ps)) : XR) (fact_inv (length ps)).
Proof.
  intros H. unfold np_cov. rewrite mul_centered, !mul_centered_same by (try apply map_nil_iff; auto).
  rewrite !n_sum_ofR, !ofR_length, !map_length. repeat split; reflexivity.
Qed.

Lemma sxx_single x : sxx [x] = 0.
Proof. unfold sxx. cbn [map]. rewrite rsum_cons'. unfold rmean. cbn. field. Qed.

Lemma sxy_le ps : sxy ps * sxy ps <= sxx (map fst ps) * sxx (map snd ps).
Proof.
  unfold sxy, sxx. rewrite !map_map.
  exact (cauchy_schwarz (fun q => fst q - rmean (map fst ps)) (fun q => snd q - rmean (map snd ps)) ps).
Qed.
Lemma sxx_nonneg l : 0 <= sxx l.
Proof. unfold sxx. rewrite <- (map_map (fun x => x - rmean l) (fun x => x * x)). apply rsum_sq_nonneg. Qed.

Lemma xmul_fin a b : n_mul (XFin a : XR) (XFin b : XR) = (XFin (a * b) : XR).
Proof. reflexivity. Qed.
Lemma xdiv_fin' a b : b <> 0 -> n_div (XFin a : XR) (XFin b : XR) = (XFin (a / b) : XR).
Proof. intros H. change (n_div (XFin a : XR) (XFin b : XR)) with (xdiv (XFin a) (XFin b)). unfold xdiv. rewrite Req_bool_false by auto. reflexivity. Qed.
Lemma xdiv_00 : n_div (XFin 0 : XR) (XFin 0 : XR) = (XNaN : XR).
Proof. change (n_div (XFin 0 : XR) (XFin 0 : XR)) with (xdiv (XFin 0) (XFin 0)). unfold xdiv. rewrite Req_bool_true, Rcompare_Eq by auto. reflexivity. Qed.


Lemma pearson_real_range ps : 0 < sxx (map fst ps) -> 0 < sxx (map snd ps) -> -1 <= pearson_real ps <= 1.
Proof.
  intros H1 H2. unfold pearson_real. set (P := sxx (map fst ps) * sxx (map snd ps)).
  assert (HP : 0 < P) by (unfold P; nra). pose proof (sqrt_lt_R0 _ HP) as HS. pose proof (sqrt_sqrt P (Rlt_le _ _ HP)) as SS.
  pose proof (sxy_le ps) as B. fold P in B. set (s := sqrt P) in *. set (x := sxy ps) in *.
  split; apply (Rmult_le_reg_r s); auto; unfold Rdiv; rewrite Rmult_assoc, Rinv_l by lra; nra.
Qed.

Lemma corr_exact ps : 0 < sxx (map fst ps) -> 0 < sxx (map snd ps) ->
  np_corrcoef (ofR (map fst ps)) (ofR (map snd ps)) = (XFin (pearson_real ps) : XR).
Proof.
  intros H1 H2.
  assert (HL : (2 <= length ps)%nat).
  { destruct ps as [|[x y] [|q ps]]; cbn [length]; try lia.
    - cbn in H1. unfold sxx in H1. cbn in H1. lra.
    - cbn [map fst] in H1. rewrite sxx_single in H1. lra. }
  assert (Hne : ps <> []) by (destruct ps; [cbn in HL; lia|discriminate]).
  destruct (cov_exact ps Hne) as (E1 & E2 & E3). destruct (fact_inv_gt (length ps) HL) as [EF PF].
  unfold np_corrcoef. rewrite E1, E2, E3, EF, !xmul_fin. set (k := / INR (length ps - 1)) in *.
  rewrite !sqrt_fin by nra.
  assert (A1 : 0 < sqrt (sxx (map fst ps) * k)) by (apply sqrt_lt_R0; nra).
  assert (A2 : 0 < sqrt (sxx (map snd ps) * k)) by (apply sqrt_lt_R0; nra).
  rewrite !xdiv_fin' by lra.
  assert (EV : sxy ps * k / sqrt (sxx (map fst ps) * k) / sqrt (sxx (map snd ps) * k) = pearson_real ps).
  { unfold pearson_real. pose proof (sqrt_lt_R0 k PF) as K1. pose proof (sqrt_lt_R0 _ H1) as K2. pose proof (sqrt_lt_R0 _ H2) as K3.
    rewrite !sqrt_mult by lra. rewrite <- (sqrt_sqrt k) at 1 by lra. field. lra. }
  rewrite EV. pose proof (pearson_real_range ps H1 H2) as R.
  unfold np_clip. change (n_isnan (XFin (pearson_real ps) : XR)) with false. cbv iota.
  change (n_ltb (XFin (pearson_real ps) : XR) (n_ofZ (-1))) with (Rlt_bool (pearson_real ps) (-1)). rewrite Rlt_bool_false by lra.
  change (n_ltb one (XFin (pearson_real ps) : XR)) with (Rlt_bool 1 (pearson_real ps)). rewrite Rlt_bool_false by lra. reflexivity.
Qed.

Lemma clip_nan (x lo hi : XR) : n_isnan x = true -> np_clip x lo hi = x.
Proof. intros H. unfold np_clip. rewrite H. reflexivity. Qed.

Lemma corr_constant ps : ps <> [] -> sxx (map fst ps) = 0 \/ sxx (map snd ps) = 0 ->
  np_corrcoef (ofR (map fst ps)) (ofR (map snd ps)) = (XNaN : XR).
Proof.
  intros Hne HZ. destruct (cov_exact ps Hne) as (E1 & E2 & E3).
  pose proof (sxy_le ps) as B. pose proof (sxx_nonneg (map fst ps)) as N1. pose proof (sxx_nonneg (map snd ps)) as N2.
  assert (S0 : sxy ps = 0).
  { assert (sxy ps * sxy ps <= 0) by (destruct HZ as [Z|Z]; rewrite Z in B; lra). nra. }
  unfold np_corrcoef. rewrite clip_nan.
  2,1: rewrite E1, E2, E3, S0.
  - destruct (le_lt_dec 2 (length ps)) as [HL|HL].
    + destruct (fact_inv_gt (length ps) HL) as [-> PF]. set (k := / INR (length ps - 1)) in *. rewrite !xmul_fin, Rmult_0_l, !sqrt_fin by nra.
      destruct (Req_dec (sxx (map fst ps)) 0) as [Z|Z].
      * rewrite Z, Rmult_0_l, sqrt_0, xdiv_00. reflexivity.
      * destruct HZ as [HZ|HZ]; [congruence|]. assert (0 < sqrt (sxx (map fst ps) * k)) by (apply sqrt_lt_R0; nra).
        rewrite xdiv_fin' by lra. rewrite HZ, Rmult_0_l, sqrt_0. unfold Rdiv. rewrite Rmult_0_l, xdiv_00. reflexivity.
    + assert (length ps = 1)%nat as -> by (destruct ps; [congruence|cbn in *; lia]). rewrite fact_inv_1.
      assert (E : n_mul (XFin 0 : XR) (XPInf : XR) = (XNaN : XR)) by (change (xmul (XFin 0) XPInf = XNaN); cbn; rewrite Rcompare_Eq by auto; reflexivity).
      rewrite E. reflexivity.
  - destruct (le_lt_dec 2 (length ps)) as [HL|HL].
    + destruct (fact_inv_gt (length ps) HL) as [-> PF]. set (k := / INR (length ps - 1)) in *. rewrite !xmul_fin, Rmult_0_l, !sqrt_fin by nra.
      destruct (Req_dec (sxx (map fst ps)) 0) as [Z|Z].
      * rewrite Z, Rmult_0_l, sqrt_0, xdiv_00. reflexivity.
      * destruct HZ as [HZ|HZ]; [congruence|]. assert (0 < sqrt (sxx (map fst ps) * k)) by (apply sqrt_lt_R0; nra).
        rewrite xdiv_fin' by lra. rewrite HZ, Rmult_0_l, sqrt_0. unfold Rdiv. rewrite Rmult_0_l, xdiv_00. reflexivity.
    + assert (length ps = 1)%nat as -> by (destruct ps; [congruence|cbn in *; lia]). rewrite fact_inv_1.
      assert (E : n_mul (XFin 0 : XR) (XPInf : XR) = (XNaN : XR)) by (change (xmul (XFin 0) XPInf = XNaN); cbn; rewrite Rcompare_Eq by auto; reflexivity).
      rewrite E. reflexivity.
Qed.

(** the sum of squared deviations vanishes exactly for constant arrays *)
Lemma sxx_zero_iff l : sxx l = 0 <-> forall x, In x l -> x = rmean l.
Proof.
  unfold sxx. generalize (rmean l) as m. intros m. split.
  - induction l as [|a l IH]; intros H x Hx; [destruct Hx|]. cbn [map] in H. rewrite rsum_cons' in H.
    pose proof (rsum_sq_nonneg (map (fun x => x - m) l)) as N. rewrite map_map in N. pose proof (Rle_0_sqr (a - m)) as Q. unfold Rsqr in Q.
    destruct Hx as [<-|Hx].
    + assert (Z : (a - m) * (a - m) = 0) by lra. apply Rmult_integral in Z. lra.
    + apply IH; auto. lra.
  - intros H. rewrite (rsum_map_ext' _ (fun _ => 0)); [|intros x Hx; rewrite (H x Hx); ring]. rewrite rsum_map_const. ring.
Qed.

Lemma rmean_affine a b l : l <> [] -> rmean (map (fun x => a * x + b) l) = a * rmean l + b.
Proof.
  intros H. pose proof (INR_length_pos l H). unfold rmean. rewrite rsum_map_add, rsum_map_scal, rsum_map_const, map_id, map_length. field. lra.
Qed.
Lemma sxx_affine a b l : l <> [] -> sxx (map (fun x => a * x + b) l) = (a * a) * sxx l.
Proof. intros H. unfold sxx. rewrite rmean_affine by auto. rewrite map_map, <- rsum_map_scal. apply rsum_map_ext'. intros; ring. Qed.
Lemma pearson_affine l a b : 0 < sxx l -> a <> 0 ->
  let ps := map (fun x => (x, a * x + b)) l in pearson_real ps = if Rlt_bool 0 a then 1 else -1.
Proof.
  intros H Ha ps. assert (Hne : l <> []) by (intros ->; unfold sxx in H; cbn in H; lra).
  assert (F : map fst ps = l) by (unfold ps; rewrite map_map; cbn; apply map_id).
  assert (G : map snd ps = map (fun x => a * x + b) l) by (unfold ps; rewrite map_map; reflexivity).
  assert (M : rmean (map snd ps) = a * rmean l + b) by (rewrite G; apply rmean_affine; auto).
  assert (SY : sxx (map snd ps) = (a * a) * sxx l).
  { unfold sxx. rewrite M, G, map_map. rewrite <- rsum_map_scal. apply rsum_map_ext'. intros; ring. }
  assert (SXY : sxy ps = a * sxx l).
  { unfold sxy. rewrite M, F. unfold ps. rewrite map_map. cbn [fst snd]. unfold sxx. rewrite <- rsum_map_scal. apply rsum_map_ext'. intros; ring. }
  unfold pearson_real. rewrite SXY, SY, F.
  destruct (Rlt_bool_spec 0 a).
  - replace (sxx l * (a * a * sxx l)) with ((a * sxx l) * (a * sxx l)) by ring. rewrite sqrt_square by nra. field. repeat split; lra.
  - replace (sxx l * (a * a * sxx l)) with ((- a * sxx l) * (- a * sxx l)) by ring. rewrite sqrt_square by nra. field. repeat split; lra.
Qed.

Lemma rain_pearson r p ps n t : length r = n -> length p = n -> real_pairs r p ps -> ps <> [] ->
  exists e, calc_rain_error_performance_metrics (mk_arr [n] r) (mk_arr [n] p) t = Ok e /\
  (sxx (map fst ps) = 0 \/ sxx (map snd ps) = 0 -> pearson_correlation e = XNaN) /\
  (sxx (map fst ps) <> 0 -> sxx (map snd ps) <> 0 -> pearson_correlation e = XFin (pearson_real ps) /\ -1 <= pearson_real ps <= 1) /\
  (forall a b, a <> 0 -> sxx (map fst ps) <> 0 -> (forall q, In q ps -> snd q = a * fst q + b) ->
     pearson_correlation e = XFin (if Rlt_bool 0 a then 1 else -1)).
Proof.
  intros H1 H2 HP Hne. destruct (rain_values r p ps n t H1 H2 HP Hne) as (e & E & _ & _ & _ & _ & _ & _ & _ & EP).
  exists e. split; auto. rewrite EP. split; [apply corr_constant; auto|].
  assert (D : sxx (map fst ps) <> 0 -> sxx (map snd ps) <> 0 ->
    np_corrcoef (ofR (map fst ps)) (ofR (map snd ps)) = (XFin (pearson_real ps) : XR) /\ -1 <= pearson_real ps <= 1).
  { intros A B. pose proof (sxx_nonneg (map fst ps)). pose proof (sxx_nonneg (map snd ps)). split; [apply corr_exact; lra|apply pearson_real_range; lra]. }
  split; [exact D|]. intros a b Ha HA HQ.
  assert (PS : ps = map (fun x => (x, a * x + b)) (map fst ps)).
  { rewrite map_map. rewrite <- (map_id ps) at 1. apply map_ext_in. intros [x y] Hq. cbn. f_equal. apply (HQ (x, y) Hq). }
  pose proof (sxx_nonneg (map fst ps)) as N1.
  pose proof (pearson_affine (map fst ps) a b ltac:(lra) Ha) as PA. cbv zeta in PA. rewrite <- PS in PA.
  destruct D as [-> _]; auto; [|rewrite PA; reflexivity].
  assert (G : map snd ps = map (fun x => a * x + b) (map fst ps)).
  { rewrite map_map. apply map_ext_in. intros q Hq. apply HQ; auto. }
  rewrite G, sxx_affine by (apply map_nil_iff; auto). intros Z. apply HA. apply Rmult_integral in Z. destruct Z as [Z|]; auto. exfalso. nra.
Qed.

(** ** mean rain of the false and missed wet pairs *)
Lemma mean_above l t : l <> [] -> (forall x, In x l -> t < x) -> t < rmean l.
Proof.
  intros H Hx. pose proof (INR_length_pos l H) as P. unfold rmean. apply (Rmult_lt_reg_r (INR (length l))); auto.
  unfold Rdiv. rewrite Rmult_assoc, Rinv_l, Rmult_1_r by lra. clear P.
  assert (G : forall l, (forall x, In x l -> t < x) -> t * INR (length l) <= rsum l).
  { clear. induction l as [|a l IH]; intros H; [cbn; lra|]. rewrite rsum_cons'. cbn [length]. rewrite S_INR. specialize (IH ltac:(intros; apply H; right; auto)).
    pose proof (H a (or_introl eq_refl)). lra. }
  destruct l as [|a l]; [congruence|]. rewrite rsum_cons'. cbn [length]. rewrite S_INR. pose proof (Hx a (or_introl eq_refl)).
  pose proof (G l ltac:(intros; apply Hx; right; auto)). lra.
Qed.

Lemma filter_map_comm {A B} (f : A -> B) (g : B -> bool) l : filter g (map f l) = map f (filter (fun x => g (f x)) l).
Proof. induction l; auto. cbn. destruct (g (f a)); cbn; rewrite IHl; auto. Qed.
Lemma n_mean_nil : n_mean (ofR []) = (XNaN : XR).
Proof. unfold n_mean. change (n_sum (ofR [])) with (XFin 0 : XR). change (n_ofZ (Z.of_nat (length (ofR []))) : XR) with (XFin 0 : XR). apply xdiv_00. Qed.

Lemma rain_precip r p ps n t : length r = n -> length p = n -> real_pairs r p ps ->
  exists e, calc_rain_error_performance_metrics (mk_arr [n] r) (mk_arr [n] p) (XFin t : XR) = Ok e /\
  (filter (fw t) ps = [] -> false_wet_precipitation_rate e = XNaN) /\
  (filter (fw t) ps <> [] -> false_wet_precipitation_rate e = XFin (rmean (map snd (filter (fw t) ps))) /\ t < rmean (map snd (filter (fw t) ps))) /\
  (filter (mw t) ps = [] -> missed_wet_precipitation_rate e = XNaN) /\
  (filter (mw t) ps <> [] -> missed_wet_precipitation_rate e = XFin (rmean (map fst (filter (mw t) ps))) /\ t < rmean (map fst (filter (mw t) ps))).
Proof.
  intros H1 H2 HP. rewrite rain_eval by congruence. eexists. split; [reflexivity|].
  cbn [false_wet_precipitation_rate missed_wet_precipitation_rate]. rewrite HP, !filter_map_comm, !map_map. cbn [fst snd].
  change (fun x : R * R => false_wet (XFin t : XR) ((XFin (fst x) : XR), (XFin (snd x) : XR))) with (fw t).
  change (fun x : R * R => missed_wet (XFin t : XR) ((XFin (fst x) : XR), (XFin (snd x) : XR))) with (mw t).
  assert (MF : map (fun x : R * R => (XFin (snd x) : XR)) (filter (fw t) ps) = ofR (map snd (filter (fw t) ps))) by (unfold ofR; rewrite map_map; reflexivity).
  assert (MM : map (fun x : R * R => (XFin (fst x) : XR)) (filter (mw t) ps) = ofR (map fst (filter (mw t) ps))) by (unfold ofR; rewrite map_map; reflexivity).
  rewrite MF, MM. split; [intros ->; apply n_mean_nil|]. split.
  - intros H. rewrite n_mean_ofR by (apply map_nil_iff; auto). split; auto. apply mean_above; [apply map_nil_iff; auto|].
    intros x Hx. apply in_map_iff in Hx. destruct Hx as (q & <- & Hq). apply filter_In in Hq. destruct Hq as [_ Hq]. unfold fw in Hq.
    apply andb_true_iff in Hq. destruct Hq as [_ Hq]. destruct (Rlt_bool_spec t (snd q)); [auto|discriminate].
  - split; [intros ->; apply n_mean_nil|]. intros H. rewrite n_mean_ofR by (apply map_nil_iff; auto). split; auto. apply mean_above; [apply map_nil_iff; auto|].
    intros x Hx. apply in_map_iff in Hx. destruct Hx as (q & <- & Hq). apply filter_In in Hq. destruct Hq as [_ Hq]. unfold mw in Hq.
    apply andb_true_iff in Hq. destruct Hq as [Hq _]. destruct (Rlt_bool_spec t (fst q)); [auto|discriminate].
Qed.
