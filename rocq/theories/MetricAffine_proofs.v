(** * Proofs for C136 *)
From Coq Require Import Reals Lra Lia ZArith Bool List.
From Flocq Require Import Core.
From Verif Require Import Base Num NumList NpOps RealSpec RealStat Stats_model Stats_spec Stats_proofs Stats_proofs2 Stats_proofs3 Stats_proofs4 MetricAffine_spec.
Import ListNotations.
Local Open Scope R_scope.
Local Notation length := List.length.

(** ** equality in the Cauchy-Schwarz inequality *)
Lemma rsum_sq_zero {A} (f : A -> R) l : rsum (map (fun q => f q * f q) l) = 0 -> forall q, In q l -> f q = 0.
Proof.
  induction l as [|x l IH]; intros H q Hq; [destruct Hq|]. cbn [map] in H. rewrite rsum_cons' in H.
  pose proof (rsum_sq_nonneg (map f l)) as N. rewrite map_map in N. pose proof (Rle_0_sqr (f x)) as Q. unfold Rsqr in Q.
  destruct Hq as [<-|Hq]; [apply Rsqr_0_uniq; unfold Rsqr; lra|apply IH; auto; lra].
Qed.

Lemma sxx_varies l : l <> [] -> sxx l <> 0 <-> varies l.
Proof.
  intros Hne. split.
  - intros H. destruct l as [|x l]; [congruence|]. clear Hne.
    destruct (List.Forall_Exists_dec (fun y => y = x) ltac:(intros y; apply Req_EM_T) l) as [F|X].
    + exfalso. apply H. apply sxx_zero_iff. rewrite Forall_forall in F.
      assert (B : rmean (x :: l) = x).
      { assert (x <= rmean (x :: l) <= x) by (apply rmean_bounds; [discriminate|]; intros y [<-|Hy]; [lra|rewrite (F y Hy); lra]). lra. }
      rewrite B. intros y [<-|Hy]; auto.
    + apply Exists_exists in X. destruct X as (y & Hy & N). exists y, x. split; [right; auto|]. split; [left; auto|auto].
  - intros (x & y & Hx & Hy & N) H. rewrite sxx_zero_iff in H. apply N. rewrite (H x Hx), (H y Hy). reflexivity.
Qed.

Lemma sxy_equality ps : 0 < sxx (map fst ps) -> sxy ps * sxy ps = sxx (map fst ps) * sxx (map snd ps) ->
  forall q, In q ps -> snd q = sxy ps / sxx (map fst ps) * fst q + (rmean (map snd ps) - sxy ps / sxx (map fst ps) * rmean (map fst ps)).
Proof.
  intros HX HE. set (X := sxx (map fst ps)) in *. set (S := sxy ps) in *. set (Y := sxx (map snd ps)) in *. set (k := S / X).
  set (mx := rmean (map fst ps)). set (my := rmean (map snd ps)).
  assert (Z : rsum (map (fun q => ((snd q - my) + (- k) * (fst q - mx)) * ((snd q - my) + (- k) * (fst q - mx))) ps) = 0).
  { rewrite (rsum_map_ext' _ (fun q => (snd q - my) * (snd q - my) + (-2 * k * ((fst q - mx) * (snd q - my)) + k * k * ((fst q - mx) * (fst q - mx)))) ps) by (intros; ring).
    rewrite !rsum_map_add, !rsum_map_scal.
    assert (EX : rsum (map (fun q => (fst q - mx) * (fst q - mx)) ps) = X) by (unfold X, sxx; rewrite map_map; reflexivity).
    assert (EY : rsum (map (fun q => (snd q - my) * (snd q - my)) ps) = Y) by (unfold Y, sxx; rewrite map_map; reflexivity).
    assert (ES : rsum (map (fun q => (fst q - mx) * (snd q - my)) ps) = S) by reflexivity.
    rewrite EX, EY, ES. replace Y with (S * S / X) by (rewrite HE; field; lra). unfold k. field. lra. }
  intros q Hq. pose proof (rsum_sq_zero _ _ Z q Hq) as H. cbv beta in H. lra.
Qed.

Lemma pearson_one ps s : 0 < sxx (map fst ps) -> 0 < sxx (map snd ps) -> s * s = 1 -> pearson_real ps = s ->
  0 < s * (sxy ps / sxx (map fst ps)) /\ sxy ps * sxy ps = sxx (map fst ps) * sxx (map snd ps).
Proof.
  intros H1 H2 Hs E. unfold pearson_real in E. set (P := sxx (map fst ps) * sxx (map snd ps)) in *.
  assert (HP : 0 < P) by (unfold P; apply Rmult_lt_0_compat; auto). pose proof (sqrt_lt_R0 _ HP) as SP. pose proof (sqrt_sqrt P (Rlt_le _ _ HP)) as SS.
  assert (EX : sxy ps = s * sqrt P) by (rewrite <- E; field; lra).
  split.
  - rewrite EX. replace (s * (s * sqrt P / sxx (map fst ps))) with ((s * s) * (sqrt P / sxx (map fst ps))) by (field; lra). rewrite Hs, Rmult_1_l. apply Rdiv_lt_0_compat; auto.
  - rewrite EX. replace (s * sqrt P * (s * sqrt P)) with ((s * s) * (sqrt P * sqrt P)) by ring. rewrite Hs, SS. ring.
Qed.

Lemma correlation_of_one r p ps n t : length r = n -> length p = n -> real_pairs r p ps -> ps <> [] ->
  exists e, calc_rain_error_performance_metrics (mk_arr [n] r) (mk_arr [n] p) t = Ok e /\
  (pearson_correlation e = XFin 1 <-> varies (map fst ps) /\ exists a b, 0 < a /\ forall q, In q ps -> snd q = a * fst q + b) /\
  (pearson_correlation e = XFin (-1) <-> varies (map fst ps) /\ exists a b, a < 0 /\ forall q, In q ps -> snd q = a * fst q + b).
Proof.
  intros H1 H2 HP Hne. destruct (rain_pearson r p ps n t H1 H2 HP Hne) as (e & E & N & V & A). exists e. split; auto.
  pose proof (sxx_nonneg (map fst ps)) as NX. pose proof (sxx_nonneg (map snd ps)) as NY.
  pose proof (sxx_varies (map fst ps) ltac:(apply map_nil_iff; auto)) as VA.
  assert (K : forall s, s * s = 1 -> pearson_correlation e = XFin s -> varies (map fst ps) /\ exists a b, 0 < s * a /\ forall q, In q ps -> snd q = a * fst q + b).
  { intros s Hs EP. destruct (Req_EM_T (sxx (map fst ps)) 0) as [Z|NZ1]; [rewrite N in EP by auto; discriminate|].
    destruct (Req_EM_T (sxx (map snd ps)) 0) as [Z|NZ2]; [rewrite N in EP by auto; discriminate|].
    destruct (V NZ1 NZ2) as [EV _]. rewrite EV in EP. injection EP as EP.
    destruct (pearson_one ps s ltac:(lra) ltac:(lra) Hs EP) as [P1 P2]. split; [apply VA; auto|].
    do 2 eexists. split; [exact P1|]. apply sxy_equality; auto. lra. }
  split; split.
  - intros EP. destruct (K 1 ltac:(lra) EP) as (W & a & b & Ha & HQ). split; auto. exists a, b. split; [lra|auto].
  - intros (W & a & b & Ha & HQ). apply VA in W. rewrite (A a b) by (auto; lra). rewrite Rlt_bool_true by auto. reflexivity.
  - intros EP. destruct (K (-1) ltac:(lra) EP) as (W & a & b & Ha & HQ). split; auto. exists a, b. split; [lra|auto].
  - intros (W & a & b & Ha & HQ). apply VA in W. rewrite (A a b) by (auto; lra). rewrite Rlt_bool_false by lra. reflexivity.
Qed.

(** ** recalibrated predictions *)
Lemma recal_nan a b x : n_isnan (match x with XFin v => XFin (a * v + b) | y => y end : XR) = n_isnan (x : XR).
Proof. destruct x; reflexivity. Qed.
Lemma recal_no_inf a b p : no_inf p -> no_inf (recalibrate a b p).
Proof.
  intros H x Hx. unfold recalibrate in Hx. apply in_map_iff in Hx. destruct Hx as (y & <- & Hy). specialize (H y Hy). destruct y; auto.
Qed.
Lemma recal_pairs a b r p ps : real_pairs r p ps -> real_pairs r (recalibrate a b p) (map (fun q => (fst q, a * snd q + b)) ps).
Proof.
  unfold real_pairs, valid_pairs, recalibrate. revert p ps. induction r as [|x r IH]; intros [|y p] ps H;
    try (cbn in H; symmetry in H; apply map_eq_nil in H; subst; reflexivity).
  cbn [map combine filter fst snd] in *. rewrite recal_nan.
  destruct (negb (n_isnan x) && negb (n_isnan y)) eqn:E.
  - destruct ps as [|q ps]; [discriminate|]. cbn [map] in H. injection H as Ex Ey H. subst x y. cbn [map fst snd]. f_equal. apply IH. exact H.
  - apply IH. exact H.
Qed.

Lemma sxy_recal a b ps : ps <> [] -> sxy (map (fun q => (fst q, a * snd q + b)) ps) = a * sxy ps.
Proof.
  intros H. unfold sxy. rewrite !map_map. cbn [fst snd].
  rewrite <- (map_map snd (fun x => a * x + b)). rewrite rmean_affine by (apply map_nil_iff; auto).
  rewrite <- rsum_map_scal. apply rsum_map_ext'. intros q _. change (map (fun x => fst x) ps) with (map fst ps). ring.
Qed.
Lemma fst_recal a b ps : map fst (map (fun q : R * R => (fst q, a * snd q + b)) ps) = map fst ps.
Proof. rewrite map_map. reflexivity. Qed.
Lemma snd_recal a b ps : map snd (map (fun q : R * R => (fst q, a * snd q + b)) ps) = map (fun x => a * x + b) (map snd ps).
Proof. rewrite !map_map. reflexivity. Qed.

Lemma pearson_recal a b ps : a <> 0 -> 0 < sxx (map fst ps) -> 0 < sxx (map snd ps) ->
  pearson_real (map (fun q => (fst q, a * snd q + b)) ps) = if Rlt_bool 0 a then pearson_real ps else - pearson_real ps.
Proof.
  intros Ha H1 H2. assert (Hne : ps <> []) by (intros ->; unfold sxx in H1; cbn in H1; lra).
  unfold pearson_real. rewrite sxy_recal, fst_recal, snd_recal, sxx_affine by (try apply map_nil_iff; auto).
  set (X := sxx (map fst ps)) in *. set (Y := sxx (map snd ps)) in *.
  assert (HP : 0 < X * Y) by (apply Rmult_lt_0_compat; auto). pose proof (sqrt_lt_R0 _ HP).
  replace (X * (a * a * Y)) with ((a * a) * (X * Y)) by ring. rewrite sqrt_mult by nra.
  destruct (Rlt_bool_spec 0 a).
  - rewrite sqrt_square by lra. field. split; lra.
  - replace (a * a) with (- a * - a) by ring. rewrite sqrt_square by lra. field. split; lra.
Qed.

Lemma recal_length a b p : length (recalibrate a b p) = length p.
Proof. apply map_length. Qed.

Lemma correlation_recalibrated a b r p n t : a <> 0 -> length r = n -> length p = n -> no_inf r -> no_inf p ->
  exists e e', calc_rain_error_performance_metrics (mk_arr [n] r) (mk_arr [n] p) t = Ok e /\
  calc_rain_error_performance_metrics (mk_arr [n] r) (mk_arr [n] (recalibrate a b p)) t = Ok e' /\
  pearson_correlation e' = if Rlt_bool 0 a then pearson_correlation e else xopp (pearson_correlation e).
Proof.
  intros Ha H1 H2 I1 I2. destruct (real_pairs_exist r p I1 I2) as (ps & HP). pose proof (recal_pairs a b r p ps HP) as HP'.
  assert (L : length (recalibrate a b p) = n) by (rewrite recal_length; auto).
  destruct ps as [|q0 qs].
  - rewrite !rain_eval by congruence. do 2 eexists. split; [reflexivity|]. split; [reflexivity|]. cbn [pearson_correlation].
    unfold real_pairs in HP, HP'. cbn [map] in HP, HP'. rewrite HP, HP'. cbn [map].
    assert (N : n_isnan (np_corrcoef ([] : list XR) []) = true).
    { unfold np_corrcoef, np_cov, v_mul, map2, centered. cbn [map combine length]. change (n_sum ([] : list XR)) with (XFin 0 : XR).
      assert (F : n_div one (n_ofnat (0 - 1)) = (XPInf : XR)) by exact fact_inv_1. rewrite F.
      assert (M : n_mul (XFin 0 : XR) (XPInf : XR) = (XNaN : XR)) by (change (xmul (XFin 0) XPInf = XNaN); unfold xmul, xinf_signed, xsgn; rewrite Rcompare_Eq by reflexivity; reflexivity).
      rewrite M. reflexivity. }
    destruct (np_corrcoef ([] : list XR) []) eqn:E; try discriminate N. destruct (Rlt_bool 0 a); reflexivity.
  - set (ps := q0 :: qs) in *. assert (Hne : ps <> []) by discriminate.
    destruct (rain_pearson r p ps n t H1 H2 HP Hne) as (e & E & N & V & _).
    destruct (rain_pearson r (recalibrate a b p) _ n t H1 L HP' ltac:(discriminate)) as (e' & E' & N' & V' & _).
    exists e, e'. split; auto. split; auto. rewrite fst_recal, snd_recal, sxx_affine in N', V' by (try apply map_nil_iff; auto).
    pose proof (sxx_nonneg (map fst ps)) as NX. pose proof (sxx_nonneg (map snd ps)) as NY.
    destruct (Req_EM_T (sxx (map fst ps)) 0) as [Z|NZ1]; [rewrite N, N' by auto; destruct (Rlt_bool 0 a); reflexivity|].
    destruct (Req_EM_T (sxx (map snd ps)) 0) as [Z|NZ2]; [rewrite N, N' by (right; auto; rewrite Z; ring); destruct (Rlt_bool 0 a); reflexivity|].
    destruct (V NZ1 NZ2) as [-> _]. assert (NZ3 : a * a * sxx (map snd ps) <> 0) by (intros Z; apply Rmult_integral in Z; destruct Z as [Z|Z]; auto; apply Rmult_integral in Z; tauto).
    destruct (V' NZ1 NZ3) as [-> _].
    rewrite pearson_recal by lra. destruct (Rlt_bool 0 a); reflexivity.
Qed.

(** ** a constant offset *)
Lemma diffs_shift b ps : diffs (map (fun q => (fst q, 1 * snd q + b)) ps) = map (fun d => 1 * d + b) (diffs ps).
Proof. unfold diffs. rewrite !map_map. apply map_ext. intros q. cbn [fst snd]. ring. Qed.
Lemma STD_shift b l : l <> [] -> STD (map (fun d => 1 * d + b) l) = STD l.
Proof.
  intros H. unfold STD. rewrite rmean_affine by auto. rewrite map_map. f_equal. f_equal. apply map_ext. intros; ring.
Qed.

Lemma offset_metrics b r p ps n t : length r = n -> length p = n -> real_pairs r p ps -> ps <> [] ->
  exists e e', calc_rain_error_performance_metrics (mk_arr [n] r) (mk_arr [n] p) t = Ok e /\
  calc_rain_error_performance_metrics (mk_arr [n] r) (mk_arr [n] (recalibrate 1 b p)) t = Ok e' /\
  coefficient_of_variation e' = coefficient_of_variation e /\
  exists rm rm' mr mp, root_mean_square_error e = (XFin rm : XR) /\ root_mean_square_error e' = (XFin rm' : XR) /\
  R_mean_reference e = (XFin mr : XR) /\ R_mean_predicted e = (XFin mp : XR) /\
  rm' ^ 2 = rm ^ 2 - (mp - mr) ^ 2 + (mp + b - mr) ^ 2.
Proof.
  intros H1 H2 HP Hne. pose proof (recal_pairs 1 b r p ps HP) as HP'. set (ps' := map (fun q => (fst q, 1 * snd q + b)) ps) in *.
  assert (Hne' : ps' <> []) by (unfold ps'; apply map_nil_iff; auto). assert (L : length (recalibrate 1 b p) = n) by (rewrite recal_length; auto).
  assert (Hd : diffs ps <> []) by (unfold diffs; apply map_nil_iff; auto).
  destruct (rain_values r p ps n t H1 H2 HP Hne) as (e & E & V). destruct (rain_values r _ ps' n t H1 L HP' Hne') as (e' & E' & V').
  destruct (rain_errors r p ps n t H1 H2 HP Hne) as (f & F & _ & F1 & F2 & F3 & _). rewrite E in F. injection F as <-.
  destruct (rain_errors r _ ps' n t H1 L HP' Hne') as (f' & F' & _ & F1' & _). rewrite E' in F'. injection F' as <-.
  assert (C : coefficient_of_variation e = xdiv (XFin (STD (diffs ps))) (XFin (rmean (map fst ps)))) by tauto.
  assert (C' : coefficient_of_variation e' = xdiv (XFin (STD (diffs ps'))) (XFin (rmean (map fst ps')))) by tauto.
  exists e, e'. split; auto. split; auto. unfold ps' in C'. rewrite diffs_shift, STD_shift, fst_recal in C' by auto. split; [congruence|].
  exists (RMSE ps), (RMSE ps'), (rmean (map fst ps)), (rmean (map snd ps)). do 4 (split; [assumption|]).
  destruct (MAE_RMSE ps Hne) as (_ & _ & _ & _ & D). destruct (MAE_RMSE ps' Hne') as (_ & _ & _ & _ & D').
  replace (diffs ps') with (map (fun d => 1 * d + b) (diffs ps)) in D' by (symmetry; apply diffs_shift). rewrite STD_shift in D' by auto.
  replace (map fst ps') with (map fst ps) in D' by (symmetry; apply fst_recal). replace (map snd ps') with (map (fun x => 1 * x + b) (map snd ps)) in D' by (symmetry; apply snd_recal). rewrite rmean_affine in D' by (apply map_nil_iff; auto). nra.
Qed.

(** ** triangle inequality *)
Lemma pairs_ofR a b : length a = length b -> real_pairs (ofR a) (ofR b) (combine a b).
Proof.
  unfold real_pairs, valid_pairs, ofR. revert b. induction a as [|x a IH]; intros [|y b] H; try discriminate; auto.
  cbn [map combine filter fst snd]. change (n_isnan (XFin x : XR)) with false. change (n_isnan (XFin y : XR)) with false. cbn [negb andb]. f_equal. apply IH. cbn in H. lia.
Qed.
Lemma combine_ne {A} (a b : list A) : length a = length b -> a <> [] -> combine a b <> [].
Proof. destruct a, b; cbn; try discriminate; congruence. Qed.

(** the differences of three series of the same length, sample by sample *)
Definition triples (a b c : list R) : list (R * R * R) := combine (combine a b) c.
Lemma diffs_ab a b c : length a = length b -> length b = length c -> diffs (combine a b) = map (fun q => snd (fst q) - fst (fst q)) (triples a b c).
Proof.
  unfold diffs, triples. revert b c. induction a as [|x a IH]; intros [|y b] [|z c] H1 H2; try discriminate; auto. cbn. f_equal. apply IH; cbn in *; lia.
Qed.
Lemma diffs_bc a b c : length a = length b -> length b = length c -> diffs (combine b c) = map (fun q => snd q - snd (fst q)) (triples a b c).
Proof.
  unfold diffs, triples. revert b c. induction a as [|x a IH]; intros [|y b] [|z c] H1 H2; try discriminate; auto. cbn. f_equal. apply IH; cbn in *; lia.
Qed.
Lemma diffs_ac a b c : length a = length b -> length b = length c -> diffs (combine a c) = map (fun q => snd q - fst (fst q)) (triples a b c).
Proof.
  unfold diffs, triples. revert b c. induction a as [|x a IH]; intros [|y b] [|z c] H1 H2; try discriminate; auto. cbn. f_equal. apply IH; cbn in *; lia.
Qed.

Lemma rsum_map_le {A} (f g : A -> R) l : (forall x, In x l -> f x <= g x) -> rsum (map f l) <= rsum (map g l).
Proof.
  induction l as [|x l IH]; intros H; [cbn; lra|]. cbn [map]. rewrite !rsum_cons'. pose proof (H x ltac:(left; auto)). specialize (IH ltac:(intros; apply H; right; auto)). lra.
Qed.
Lemma mean_abs_triangle {A} (f g : A -> R) l : l <> [] ->
  rmean (map Rabs (map (fun q => f q + g q) l)) <= rmean (map Rabs (map f l)) + rmean (map Rabs (map g l)).
Proof.
  intros H. pose proof (INR_length_pos l H) as P. unfold rmean. rewrite !map_length. rewrite <- Rdiv_plus_distr. apply Rmult_le_compat_r; [left; apply Rinv_0_lt_compat; auto|].
  rewrite !map_map, <- rsum_map_add. apply rsum_map_le. intros; apply Rabs_triang.
Qed.
Lemma rms_triangle {A} (f g : A -> R) l : l <> [] ->
  sqrt (rmean (map (fun d => d * d) (map (fun q => f q + g q) l))) <= sqrt (rmean (map (fun d => d * d) (map f l))) + sqrt (rmean (map (fun d => d * d) (map g l))).
Proof.
  intros H. pose proof (INR_length_pos l H) as P. set (k := / INR (length l)). assert (Hk : 0 < k) by (apply Rinv_0_lt_compat; auto).
  unfold rmean. rewrite !map_length, !map_map. unfold Rdiv. fold k.
  pose proof (cauchy_schwarz f g l) as CS.
  assert (E : rsum (map (fun q => (f q + g q) * (f q + g q)) l) = rsum (map (fun q => f q * f q) l) + (2 * rsum (map (fun q => f q * g q) l) + rsum (map (fun q => g q * g q) l))).
  { rewrite <- rsum_map_scal, <- !rsum_map_add. apply rsum_map_ext'. intros; ring. }
  rewrite E. pose proof (rsum_sq_nonneg (map f l)) as NF. pose proof (rsum_sq_nonneg (map g l)) as NG. rewrite map_map in NF, NG.
  set (S := rsum (map (fun q => f q * g q) l)) in *. set (F := rsum (map (fun q => f q * f q) l)) in *. set (G := rsum (map (fun q => g q * g q) l)) in *.
  assert (PF : 0 <= F * k) by nra. assert (PG : 0 <= G * k) by nra.
  pose proof (sqrt_pos (F * k)) as sf. pose proof (sqrt_pos (G * k)) as sg. pose proof (sqrt_sqrt _ PF) as qf. pose proof (sqrt_sqrt _ PG) as qg.
  rewrite <- (sqrt_square (sqrt (F * k) + sqrt (G * k))) by lra. apply sqrt_le_1_alt.
  set (u := sqrt (F * k)) in *. set (v := sqrt (G * k)) in *.
  assert (B : S * k <= u * v).
  { destruct (Rle_dec (S * k) 0) as [N|N]; [pose proof (Rmult_le_pos u v sf sg); lra|].
    apply Rsqr_incr_0_var; [|apply Rmult_le_pos; auto]. unfold Rsqr. replace (u * v * (u * v)) with ((u * u) * (v * v)) by ring. rewrite qf, qg.
    replace (S * k * (S * k)) with ((S * S) * (k * k)) by ring. replace (F * k * (G * k)) with ((F * G) * (k * k)) by ring. apply Rmult_le_compat_r; [nra|auto]. }
  replace ((u + v) * (u + v)) with (u * u + 2 * (u * v) + v * v) by ring. rewrite qf, qg. lra.
Qed.

Lemma metric_triangle a b c n t : length a = n -> length b = n -> length c = n -> n <> 0%nat ->
  exists e1 e2 e3, calc_rain_error_performance_metrics (mk_arr [n] (ofR a)) (mk_arr [n] (ofR b)) t = Ok e1 /\
  calc_rain_error_performance_metrics (mk_arr [n] (ofR b)) (mk_arr [n] (ofR c)) t = Ok e2 /\
  calc_rain_error_performance_metrics (mk_arr [n] (ofR a)) (mk_arr [n] (ofR c)) t = Ok e3 /\
  exists r1 r2 r3 m1 m2 m3, root_mean_square_error e1 = (XFin r1 : XR) /\ root_mean_square_error e2 = (XFin r2 : XR) /\ root_mean_square_error e3 = (XFin r3 : XR) /\
  mean_absolute_error e1 = (XFin m1 : XR) /\ mean_absolute_error e2 = (XFin m2 : XR) /\ mean_absolute_error e3 = (XFin m3 : XR) /\
  r3 <= r1 + r2 /\ m3 <= m1 + m2.
Proof.
  intros Ha Hb Hc Hn. assert (Na : a <> []) by (intros ->; cbn in Ha; lia). assert (Nb : b <> []) by (intros ->; cbn in Hb; lia).
  assert (OL : forall l : list R, length (ofR l) = length l) by (intros; unfold ofR; apply map_length).
  destruct (rain_errors (ofR a) (ofR b) _ n t ltac:(rewrite OL; auto) ltac:(rewrite OL; auto) (pairs_ofR a b ltac:(congruence)) (combine_ne a b ltac:(congruence) Na)) as (e1 & E1 & M1 & R1 & _).
  destruct (rain_errors (ofR b) (ofR c) _ n t ltac:(rewrite OL; auto) ltac:(rewrite OL; auto) (pairs_ofR b c ltac:(congruence)) (combine_ne b c ltac:(congruence) Nb)) as (e2 & E2 & M2 & R2 & _).
  destruct (rain_errors (ofR a) (ofR c) _ n t ltac:(rewrite OL; auto) ltac:(rewrite OL; auto) (pairs_ofR a c ltac:(congruence)) (combine_ne a c ltac:(congruence) Na)) as (e3 & E3 & M3 & R3 & _).
  exists e1, e2, e3. do 3 (split; [assumption|]). do 6 eexists. do 6 (split; [eassumption|]).
  unfold RMSE, MAE. rewrite (diffs_ab a b c), (diffs_bc a b c), (diffs_ac a b c) by congruence.
  assert (NT : triples a b c <> []) by (destruct a, b, c; cbn in *; try lia; discriminate).
  assert (X : map (fun q => snd q - fst (fst q)) (triples a b c) = map (fun q => (snd (fst q) - fst (fst q)) + (snd q - snd (fst q))) (triples a b c)) by (apply map_ext; intros; ring).
  rewrite X. split; [apply rms_triangle|apply mean_abs_triangle]; auto.
Qed.

Lemma best_offset b r p ps n t : length r = n -> length p = n -> real_pairs r p ps -> ps <> [] ->
  exists mr mp e e', R_mean_reference e = (XFin mr : XR) /\ R_mean_predicted e = (XFin (mp + (mr - mp)) : XR) /\
  calc_rain_error_performance_metrics (mk_arr [n] r) (mk_arr [n] (recalibrate 1 (mr - mp) p)) t = Ok e /\
  calc_rain_error_performance_metrics (mk_arr [n] r) (mk_arr [n] (recalibrate 1 b p)) t = Ok e' /\
  exists rm rm', root_mean_square_error e = (XFin rm : XR) /\ root_mean_square_error e' = (XFin rm' : XR) /\
  rm <= rm' /\ (rm' = rm -> b = mr - mp).
Proof.
  intros H1 H2 HP Hne.
  destruct (offset_metrics b r p ps n t H1 H2 HP Hne) as (e0 & e' & E0 & E' & _ & r0 & rm' & mr & mp & R0 & R' & MR & MP & Q').
  destruct (offset_metrics (mr - mp) r p ps n t H1 H2 HP Hne) as (e0' & e & E0' & E & _ & r0' & rm & mr' & mp' & R0' & R & MR' & MP' & Q).
  rewrite E0 in E0'. injection E0' as <-. rewrite R0 in R0'. injection R0' as <-. rewrite MR in MR'. injection MR' as <-. rewrite MP in MP'. injection MP' as <-.
  assert (L : forall c, List.length (recalibrate 1 c p) = n) by (intros; rewrite recal_length; auto).
  assert (NE : forall c, map (fun q => (fst q, 1 * snd q + c)) ps <> []) by (intros; apply map_nil_iff; auto).
  destruct (rain_errors r p ps n t H1 H2 HP Hne) as (f0 & F0 & _ & _ & G0 & G1 & _). rewrite E0 in F0. injection F0 as <-.
  rewrite MR in G0. injection G0 as EMR. rewrite MP in G1. injection G1 as EMP.
  destruct (rain_errors r _ _ n t H1 (L (mr - mp)) (recal_pairs 1 (mr - mp) r p ps HP) (NE _)) as (f & F & _ & FR & F2 & F3 & _ & _ & FP & _). rewrite E in F. injection F as <-.
  destruct (rain_errors r _ _ n t H1 (L b) (recal_pairs 1 b r p ps HP) (NE _)) as (f' & F' & _ & FR' & _ & _ & _ & _ & FP' & _). rewrite E' in F'. injection F' as <-.
  rewrite R in FR. injection FR as FR. rewrite R' in FR'. injection FR' as FR'. rewrite <- FR in FP. rewrite <- FR' in FP'.
  exists mr, mp, e, e'. rewrite fst_recal in F2. rewrite snd_recal, rmean_affine in F3 by (apply map_nil_iff; auto).
  split; [rewrite F2; rewrite EMR; reflexivity|]. split; [rewrite F3; apply (f_equal XFin); rewrite <- EMP; ring|]. split; auto. split; auto.
  exists rm, rm'. split; auto. split; auto. assert (0 <= rm) by lra. assert (0 <= rm') by lra.
  assert (D : rm' ^ 2 = rm ^ 2 + (mp + b - mr) ^ 2) by (rewrite Q', Q; ring).
  split.
  - apply Rsqr_incr_0_var; auto. unfold Rsqr. pose proof (pow2_ge_0 (mp + b - mr)). lra.
  - intros X. rewrite X in D. assert (Z : Rsqr (mp + b - mr) = 0) by (unfold Rsqr; lra). apply Rsqr_0_uniq in Z. lra.
Qed.
