(** * Proofs about metrics of records that are joined *)
From Coq Require Import List ZArith Bool Lia Reals Lra Psatz.
From Flocq Require Import Core.Raux.
From Verif Require Import Base Num NumF64 NumList NpOps RealSpec RealStat Stats_model Stats_spec MetricPool_spec Stats_proofs Stats_proofs2 Stats_proofs3.
Import ListNotations.
Local Open Scope nat_scope.

Section Any.
Context {O : numops}.
Lemma combine_app' {A B} (a a' : list A) (b b' : list B) : length a = length b -> combine (a ++ a') (b ++ b') = combine a b ++ combine a' b'.
Proof. revert b. induction a as [|x a IH]; intros [|y b] E; try discriminate; auto. cbn. f_equal. apply IH. cbn in E. lia. Qed.
Lemma valid_app (r1 p1 r2 p2 : list O) : length r1 = length p1 -> valid_pairs (r1 ++ r2) (p1 ++ p2) = valid_pairs r1 p1 ++ valid_pairs r2 p2.
Proof. intros E. unfold valid_pairs. rewrite combine_app' by auto. apply filter_app. Qed.
Lemma count_app {A} (f : A -> bool) l l' : count f (l ++ l') = count f l + count f l'.
Proof. unfold count. rewrite filter_app, app_length. reflexivity. Qed.
Lemma nan_app (r1 p1 r2 p2 : list O) : length r1 = length p1 -> length r2 = length p2 ->
  b_sum (nan_index (r1 ++ r2) (p1 ++ p2)) = b_sum (nan_index r1 p1) + b_sum (nan_index r2 p2).
Proof.
  intros E1 E2. pose proof (nan_count r1 p1 E1). pose proof (nan_count r2 p2 E2).
  assert (E : length (r1 ++ r2) = length (p1 ++ p2)) by (rewrite !app_length; lia).
  pose proof (nan_count _ _ E) as H1. rewrite valid_app, !app_length in H1 by auto. lia.
Qed.

Lemma pool_counts (r1 p1 r2 p2 : list O) n1 n2 : length r1 = n1 -> length p1 = n1 -> length r2 = n2 -> length p2 = n2 ->
  exists w1 w2 w,
  calc_wet_dry_performance_metrics (mk_arr [n1] r1) (mk_arr [n1] p1) = Ok w1 /\
  calc_wet_dry_performance_metrics (mk_arr [n2] r2) (mk_arr [n2] p2) = Ok w2 /\
  calc_wet_dry_performance_metrics (mk_arr [n1 + n2] (r1 ++ r2)) (mk_arr [n1 + n2] (p1 ++ p2)) = Ok w /\
  N_true_wet w = N_true_wet w1 + N_true_wet w2 /\ N_true_dry w = N_true_dry w1 + N_true_dry w2 /\
  N_false_wet w = N_false_wet w1 + N_false_wet w2 /\ N_missed_wet w = N_missed_wet w1 + N_missed_wet w2 /\
  N_wet_reference w = N_wet_reference w1 + N_wet_reference w2 /\ N_dry_reference w = N_dry_reference w1 + N_dry_reference w2 /\
  N_all_pairs w = N_all_pairs w1 + N_all_pairs w2 /\ N_nan_pairs w = N_nan_pairs w1 + N_nan_pairs w2 /\
  N_nan_reference_only w = N_nan_reference_only w1 + N_nan_reference_only w2 /\
  N_nan_predicted_only w = N_nan_predicted_only w1 + N_nan_predicted_only w2.
Proof.
  intros A1 B1 A2 B2. assert (E1 : length r1 = length p1) by congruence. assert (E2 : length r2 = length p2) by congruence.
  assert (E : length (r1 ++ r2) = length (p1 ++ p2)) by (rewrite !app_length; lia).
  rewrite (wd_eval r1 p1 n1 [] E1), (wd_eval r2 p2 n2 [] E2), (wd_eval _ _ (n1 + n2) [] E).
  do 3 eexists. do 3 (split; [reflexivity|]).
  cbn [N_true_wet N_true_dry N_false_wet N_missed_wet N_nan_reference_only N_nan_predicted_only N_all_pairs N_wet_reference N_dry_reference N_nan_pairs].
  rewrite valid_app, nan_app, !count_app by auto. repeat split; reflexivity.
Qed.

Context (S : numsem O).
Lemma ratio_le a b c d : b <> 0 -> d <> 0 -> (Z.of_nat a <= 2 ^ 53)%Z -> (Z.of_nat b <= 2 ^ 53)%Z -> (Z.of_nat c <= 2 ^ 53)%Z -> (Z.of_nat d <= 2 ^ 53)%Z ->
  a * d <= c * b -> n_leb (ratio a b : O) (ratio c d) = true.
Proof using S.
  intros Hb Hd La Lb Lc Ld H. unfold ratio.
  assert (Pb : (0 < INR b)%R) by (apply lt_0_INR; lia). assert (Pd : (0 < INR d)%R) by (apply lt_0_INR; lia).
  rewrite (val_leb _ S), !(val_div _ S) by (rewrite ofnat_val by auto; intros K; injection K; lra).
  rewrite !ofnat_val by auto. apply (rnd_mono _ S). unfold xdiv. rewrite !Req_bool_false by lra. cbn [xleb].
  apply Rle_bool_true. apply le_INR in H. rewrite !mult_INR in H.
  apply Rmult_le_reg_r with (INR b * INR d)%R; [apply Rmult_lt_0_compat; auto|].
  replace (INR a / INR b * (INR b * INR d))%R with (INR a * INR d)%R by (field; lra).
  replace (INR c / INR d * (INR b * INR d))%R with (INR c * INR b)%R by (field; lra). exact H.
Qed.
Lemma ratio_between a b c d : b <> 0 -> d <> 0 -> (Z.of_nat (a + c) <= 2 ^ 53)%Z -> (Z.of_nat (b + d) <= 2 ^ 53)%Z ->
  lies_between (ratio a b : O) (ratio c d) (ratio (a + c) (b + d)).
Proof using S.
  intros Hb Hd L1 L2. unfold lies_between. destruct (le_lt_dec (a * d) (c * b)) as [H|H].
  - left. split; apply ratio_le; try lia; nia.
  - right. split; apply ratio_le; try lia; nia.
Qed.

Lemma count_le_length {A} (f : A -> bool) l : count f l <= length l.
Proof. unfold count. induction l as [|x l IH]; cbn; auto. destruct (f x); cbn; lia. Qed.

Lemma pool_rates (r1 p1 r2 p2 : list O) n1 n2 : length r1 = n1 -> length p1 = n1 -> length r2 = n2 -> length p2 = n2 ->
  (Z.of_nat (n1 + n2) <= 2 ^ 53)%Z ->
  exists w1 w2 w,
  calc_wet_dry_performance_metrics (mk_arr [n1] r1) (mk_arr [n1] p1) = Ok w1 /\
  calc_wet_dry_performance_metrics (mk_arr [n2] r2) (mk_arr [n2] p2) = Ok w2 /\
  calc_wet_dry_performance_metrics (mk_arr [n1 + n2] (r1 ++ r2)) (mk_arr [n1 + n2] (p1 ++ p2)) = Ok w /\
  (N_wet_reference w1 <> 0 -> N_wet_reference w2 <> 0 ->
    lies_between (wd_true_wet_rate w1) (wd_true_wet_rate w2) (wd_true_wet_rate w) /\
    lies_between (wd_missed_wet_rate w1) (wd_missed_wet_rate w2) (wd_missed_wet_rate w)) /\
  (N_dry_reference w1 <> 0 -> N_dry_reference w2 <> 0 ->
    lies_between (wd_true_dry_rate w1) (wd_true_dry_rate w2) (wd_true_dry_rate w) /\
    lies_between (wd_false_wet_rate w1) (wd_false_wet_rate w2) (wd_false_wet_rate w)) /\
  (N_wet_reference w2 = 0 -> wd_true_wet_rate w = wd_true_wet_rate w1 /\ wd_missed_wet_rate w = wd_missed_wet_rate w1) /\
  (N_dry_reference w2 = 0 -> wd_true_dry_rate w = wd_true_dry_rate w1 /\ wd_false_wet_rate w = wd_false_wet_rate w1).
Proof using S.
  intros A1 B1 A2 B2 HN. assert (E1 : length r1 = length p1) by congruence. assert (E2 : length r2 = length p2) by congruence.
  assert (E : length (r1 ++ r2) = length (p1 ++ p2)) by (rewrite !app_length; lia).
  rewrite (wd_eval r1 p1 n1 [] E1), (wd_eval r2 p2 n2 [] E2), (wd_eval _ _ (n1 + n2) [] E).
  do 3 eexists. do 3 (split; [reflexivity|]).
  cbn [N_wet_reference N_dry_reference wd_true_wet_rate wd_true_dry_rate wd_false_wet_rate wd_missed_wet_rate].
  rewrite valid_app, !count_app by auto.
  pose proof (nan_count r1 p1 E1) as L1. pose proof (nan_count r2 p2 E2) as L2.
  set (ps := valid_pairs r1 p1) in *. set (qs := valid_pairs r2 p2) in *.
  assert (C : forall f, (Z.of_nat (count f ps + count f qs) <= 2 ^ 53)%Z).
  { intros f. pose proof (count_le_length f ps). pose proof (count_le_length f qs). lia. }
  pose proof (marginals zero qs) as (M1 & M2 & _).
  split; [|split; [|split]].
  - intros N1 N2. split; apply ratio_between; auto.
  - intros N1 N2. split; apply ratio_between; auto.
  - intros N2. rewrite N2 in *. replace (count (true_wet zero) qs) with 0 by lia. replace (count (missed_wet zero) qs) with 0 by lia. rewrite !Nat.add_0_r. split; reflexivity.
  - intros N2. rewrite N2 in *. replace (count (true_dry zero) qs) with 0 by lia. replace (count (false_wet zero) qs) with 0 by lia. rewrite !Nat.add_0_r. split; reflexivity.
Qed.
End Any.

(** ** rain errors, exact *)
Lemma xadd_assoc' a b c : xadd (xadd a b) c = xadd a (xadd b c).
Proof. destruct a, b, c; cbn; auto. f_equal. ring. Qed.
Lemma fold_xadd_from (l : list XR) : forall a : XR, fold_left (@n_add XR) l a = n_add a (fold_left (@n_add XR) l (XFin 0)).
Proof.
  induction l as [|x l IH]; intros a; [cbn [fold_left]; change (a = xadd a (XFin 0)); destruct a; cbn; auto; f_equal; ring|].
  cbn [fold_left]. rewrite (IH (n_add a x)), (IH (n_add (XFin 0 : XR) x)).
  change (xadd (xadd a x) (fold_left (@n_add XR) l (XFin 0)) = xadd a (xadd (xadd (XFin 0) x) (fold_left (@n_add XR) l (XFin 0)))).
  rewrite !xadd_assoc'. f_equal. destruct x; cbn [xadd]; try rewrite Rplus_0_l;
  destruct (fold_left (@n_add XR) l (XFin 0)); cbn; auto; f_equal; ring.
Qed.
Lemma sum_app_XR (l l' : list XR) : n_sum (l ++ l') = n_add (n_sum l) (n_sum l').
Proof. unfold n_sum. rewrite fold_left_app. apply fold_xadd_from. Qed.

Lemma pool_sums (r1 p1 r2 p2 : list XR) n1 n2 t : length r1 = n1 -> length p1 = n1 -> length r2 = n2 -> length p2 = n2 ->
  exists e1 e2 e,
  calc_rain_error_performance_metrics (mk_arr [n1] r1) (mk_arr [n1] p1) t = Ok e1 /\
  calc_rain_error_performance_metrics (mk_arr [n2] r2) (mk_arr [n2] p2) t = Ok e2 /\
  calc_rain_error_performance_metrics (mk_arr [n1 + n2] (r1 ++ r2)) (mk_arr [n1 + n2] (p1 ++ p2)) t = Ok e /\
  R_sum_reference e = n_add (R_sum_reference e1) (R_sum_reference e2) /\
  R_sum_predicted e = n_add (R_sum_predicted e1) (R_sum_predicted e2).
Proof.
  intros A1 B1 A2 B2. assert (E1 : length r1 = length p1) by congruence. assert (E2 : length r2 = length p2) by congruence.
  assert (E : length (r1 ++ r2) = length (p1 ++ p2)) by (rewrite !app_length; lia).
  rewrite (rain_eval r1 p1 n1 [] t E1), (rain_eval r2 p2 n2 [] t E2), (rain_eval _ _ (n1 + n2) [] t E).
  do 3 eexists. do 3 (split; [reflexivity|]). cbn [R_sum_reference R_sum_predicted].
  rewrite valid_app, !map_app, !sum_app_XR by auto. split; reflexivity.
Qed.

Lemma real_pairs_app r1 p1 r2 p2 ps qs : length r1 = length p1 -> real_pairs r1 p1 ps -> real_pairs r2 p2 qs -> real_pairs (r1 ++ r2) (p1 ++ p2) (ps ++ qs).
Proof. unfold real_pairs. intros E H1 H2. rewrite valid_app, H1, H2, map_app by auto. reflexivity. Qed.
(** joined means are weighted means *)
Lemma rmean_app l l' : l <> [] -> l' <> [] -> ((INR (length l) + INR (length l')) * rmean (l ++ l') = INR (length l) * rmean l + INR (length l') * rmean l')%R.
Proof.
  intros H H'. pose proof (INR_length_pos l H). pose proof (INR_length_pos l' H'). unfold rmean. rewrite app_length, plus_INR, rsum_app. field. lra.
Qed.
Lemma RMSE_sq ps : (RMSE ps * RMSE ps = rmean (map (fun d => d * d) (diffs ps)))%R.
Proof. unfold RMSE. apply sqrt_sqrt. apply rmean_sq_nonneg. Qed.

Lemma pool_errors (r1 p1 r2 p2 : list XR) ps qs n1 n2 t : length r1 = n1 -> length p1 = n1 -> length r2 = n2 -> length p2 = n2 ->
  real_pairs r1 p1 ps -> real_pairs r2 p2 qs -> ps <> [] -> qs <> [] ->
  exists e1 e2 e,
  calc_rain_error_performance_metrics (mk_arr [n1] r1) (mk_arr [n1] p1) t = Ok e1 /\
  calc_rain_error_performance_metrics (mk_arr [n2] r2) (mk_arr [n2] p2) t = Ok e2 /\
  calc_rain_error_performance_metrics (mk_arr [n1 + n2] (r1 ++ r2)) (mk_arr [n1 + n2] (p1 ++ p2)) t = Ok e /\
  let N1 := INR (n1 - re_N_nan_pairs e1) in let N2 := INR (n2 - re_N_nan_pairs e2) in
  (0 < N1 /\ 0 < N2)%R /\
  (forall metric, metric = @mean_absolute_error XR \/ metric = @R_mean_reference XR \/ metric = @R_mean_predicted XR ->
    exists x1 x2 x, metric e1 = XFin x1 /\ metric e2 = XFin x2 /\ metric e = XFin x /\ ((N1 + N2) * x = N1 * x1 + N2 * x2)%R) /\
  exists x1 x2 x, root_mean_square_error e1 = XFin x1 /\ root_mean_square_error e2 = XFin x2 /\ root_mean_square_error e = XFin x /\
    ((N1 + N2) * (x * x) = N1 * (x1 * x1) + N2 * (x2 * x2))%R /\ (Rmin x1 x2 <= x <= Rmax x1 x2)%R.
Proof.
  intros A1 B1 A2 B2 H1 H2 Q1 Q2.
  assert (E1 : length r1 = length p1) by congruence. assert (E2 : length r2 = length p2) by congruence.
  pose proof (real_pairs_app _ _ _ _ _ _ E1 H1 H2) as H.
  destruct (rain_values r1 p1 ps n1 t A1 B1 H1 Q1) as (e1 & C1 & V1 & V2 & _ & _ & V3 & V4 & _).
  destruct (rain_values r2 p2 qs n2 t A2 B2 H2 Q2) as (e2 & C2 & W1 & W2 & _ & _ & W3 & W4 & _).
  destruct (rain_values (r1 ++ r2) (p1 ++ p2) (ps ++ qs) (n1 + n2) t) as (e & C & X1 & X2 & _ & _ & X3 & X4 & _); try (rewrite app_length; lia); auto.
  { destruct ps; [congruence|discriminate]. }
  exists e1, e2, e. do 3 (split; [assumption|]). intros N1 N2.
  assert (EN1 : N1 = INR (length ps)).
  { unfold N1. rewrite (rain_eval r1 p1 n1 [] t E1) in C1. injection C1 as C1. rewrite <- C1. cbn [re_N_nan_pairs].
    pose proof (nan_count r1 p1 E1) as L. rewrite H1, map_length in L. f_equal. lia. }
  assert (EN2 : N2 = INR (length qs)).
  { unfold N2. rewrite (rain_eval r2 p2 n2 [] t E2) in C2. injection C2 as C2. rewrite <- C2. cbn [re_N_nan_pairs].
    pose proof (nan_count r2 p2 E2) as L. rewrite H2, map_length in L. f_equal. lia. }
  clearbody N1 N2. subst N1 N2. pose proof (INR_length_pos ps Q1) as P1. pose proof (INR_length_pos qs Q2) as P2.
  split; [split; assumption|].
  assert (W : forall f : R * R -> R, ((INR (length ps) + INR (length qs)) * rmean (map f (ps ++ qs)) = INR (length ps) * rmean (map f ps) + INR (length qs) * rmean (map f qs))%R).
  { intros f. rewrite map_app, <- (map_length f ps), <- (map_length f qs). apply rmean_app; apply map_nil_iff; assumption. }
  split.
  - intros metric [-> | [-> | ->]]; do 3 eexists; (split; [eassumption|]); (split; [eassumption|]); (split; [eassumption|]); try apply W.
    unfold MAE, diffs. rewrite !map_map. apply W.
  - do 3 eexists. split; [eassumption|]. split; [eassumption|]. split; [eassumption|].
    assert (K : ((INR (length ps) + INR (length qs)) * (RMSE (ps ++ qs) * RMSE (ps ++ qs)) = INR (length ps) * (RMSE ps * RMSE ps) + INR (length qs) * (RMSE qs * RMSE qs))%R).
    { rewrite !RMSE_sq. unfold diffs. rewrite !map_map. apply W. }
    split; [exact K|].
    assert (Z1 : (0 <= RMSE ps)%R) by apply sqrt_pos. assert (Z2 : (0 <= RMSE qs)%R) by apply sqrt_pos. assert (Z : (0 <= RMSE (ps ++ qs))%R) by apply sqrt_pos.
    revert K Z1 Z2 Z P1 P2. generalize (RMSE ps) (RMSE qs) (RMSE (ps ++ qs)) (INR (length ps)) (INR (length qs)). clear.
    intros a b c m n K Za Zb Zc Pm Pn.
    assert (G : forall u v, (0 <= u -> 0 <= v -> u <= v -> u * u <= v * v)%R) by (intros; nra).
    assert (LO : forall l, (0 <= l -> l <= a -> l <= b -> l <= c)%R).
    { intros l Hl La Lb. destruct (Rle_lt_dec l c) as [|D]; auto. exfalso. pose proof (G l a Hl Za La). pose proof (G l b Hl Zb Lb).
      assert (c * c < l * l)%R by nra. nra. }
    assert (HI : forall h, (a <= h -> b <= h -> c <= h)%R).
    { intros h La Lb. destruct (Rle_lt_dec c h) as [|D]; auto. exfalso. assert (0 <= h)%R by lra. pose proof (G a h Za H La). pose proof (G b h Zb H Lb).
      assert (h * h < c * c)%R by nra. nra. }
    split.
    + apply LO; [apply Rmin_glb; assumption|apply Rmin_l|apply Rmin_r].
    + apply HI; [apply Rmax_l|apply Rmax_r].
Qed.
