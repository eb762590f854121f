(** * Proofs about the rain error metrics *)
From Coq Require Import List ZArith Bool Lia Reals Lra Psatz.
From Flocq Require Import Core.Raux.
From Verif Require Import Base Num NumF64 NumList NpOps RealSpec RealStat Stats_model Stats_spec Stats_proofs Stats_proofs2.
Import ListNotations.
Local Open Scope nat_scope.

Section Any.
Context {O : numops}.

Lemma rain_eval (r p : list O) n sh t : length r = length p ->
  let ps := valid_pairs r p in let R := map fst ps in let P := map snd ps in
  calc_rain_error_performance_metrics (mk_arr (n :: sh) r) (mk_arr (n :: sh) p) t =
  Ok {| pearson_correlation := np_corrcoef R P; coefficient_of_variation := n_div (np_std (v_sub P R)) (n_mean R);
        root_mean_square_error := n_sqrt (n_mean (v_square (v_sub P R))); mean_absolute_error := n_mean (map n_abs (v_sub P R));
        R_sum_reference := n_sum R; R_sum_predicted := n_sum P; R_mean_reference := n_mean R; R_mean_predicted := n_mean P;
        re_false_wet_rate := ratio (count (false_wet t) ps) (count (fun p => dry t (fst p)) ps);
        re_missed_wet_rate := ratio (count (missed_wet t) ps) (count (fun p => wet t (fst p)) ps);
        false_wet_precipitation_rate := n_mean (map snd (filter (false_wet t) ps));
        missed_wet_precipitation_rate := n_mean (map fst (filter (missed_wet t) ps));
        rainfall_threshold_wet := t;
        re_N_all_pairs := n; re_N_nan_pairs := b_sum (nan_index r p);
        re_N_nan_reference_only := count n_isnan r; re_N_nan_predicted_only := count n_isnan p |}.
Proof.
  intros E ps R P. unfold calc_rain_error_performance_metrics. cbn [nd_shape nd_data nd_len bind].
  rewrite shape_eqb_refl. cbn [negb]. destruct (valid_fst r p E) as [-> ->]. fold ps. fold R. fold P.
  unfold b_not, R, P. rewrite !map_map, !b_and_map, !b_sum_map, !mask_select_map. reflexivity.
Qed.

Lemma rain_shapes (a b : ndarr O) t : nd_shape a <> nd_shape b -> calc_rain_error_performance_metrics a b t = Err AssertionError.
Proof. intros H. unfold calc_rain_error_performance_metrics. rewrite shape_neqb by auto. reflexivity. Qed.

(** the metrics are a function of the valid pairs; removing the NaN pairs by hand changes only the NaN counts *)
Lemma valid_pairs_idem (r p : list O) : let ps := valid_pairs r p in valid_pairs (map fst ps) (map snd ps) = ps.
Proof.
  cbv zeta. unfold valid_pairs. generalize (combine r p). clear. intros l.
  induction l as [|[x y] l IH]; auto. cbn [filter fst snd]. destruct (negb (n_isnan x) && negb (n_isnan y)) eqn:E; auto.
  cbn [map combine filter fst snd]. rewrite E. f_equal. exact IH.
Qed.
Lemma rain_valid_only (r p r' p' : list O) n n' t : length r = n -> length p = n -> length r' = n' -> length p' = n' ->
  valid_pairs r p = valid_pairs r' p' ->
  exists e e', calc_rain_error_performance_metrics (mk_arr [n] r) (mk_arr [n] p) t = Ok e /\
  calc_rain_error_performance_metrics (mk_arr [n'] r') (mk_arr [n'] p') t = Ok e' /\
  pearson_correlation e = pearson_correlation e' /\ coefficient_of_variation e = coefficient_of_variation e' /\
  root_mean_square_error e = root_mean_square_error e' /\ mean_absolute_error e = mean_absolute_error e' /\
  R_sum_reference e = R_sum_reference e' /\ R_sum_predicted e = R_sum_predicted e' /\
  R_mean_reference e = R_mean_reference e' /\ R_mean_predicted e = R_mean_predicted e' /\
  re_false_wet_rate e = re_false_wet_rate e' /\ re_missed_wet_rate e = re_missed_wet_rate e' /\
  false_wet_precipitation_rate e = false_wet_precipitation_rate e' /\ missed_wet_precipitation_rate e = missed_wet_precipitation_rate e' /\
  re_N_all_pairs e - re_N_nan_pairs e = re_N_all_pairs e' - re_N_nan_pairs e'.
Proof.
  intros H1 H2 H3 H4 HV. rewrite !rain_eval by congruence. do 2 eexists. split; [reflexivity|]. split; [reflexivity|]. cbn.
  rewrite HV. do 12 (split; [reflexivity|]).
  pose proof (nan_count r p ltac:(congruence)). pose proof (nan_count r' p' ltac:(congruence)). rewrite HV in *. lia.
Qed.

(** rates: strict comparison *)
Lemma rain_rates (r p : list O) n t : length r = n -> length p = n ->
  exists e, calc_rain_error_performance_metrics (mk_arr [n] r) (mk_arr [n] p) t = Ok e /\
  let ps := valid_pairs r p in
  re_false_wet_rate e = n_div (n_count (count (fun q => negb (n_ltb t (fst q)) && n_ltb t (snd q)) ps)) (n_count (count (fun q => negb (n_ltb t (fst q))) ps)) /\
  re_missed_wet_rate e = n_div (n_count (count (fun q => n_ltb t (fst q) && negb (n_ltb t (snd q))) ps)) (n_count (count (fun q => n_ltb t (fst q)) ps)).
Proof. intros H1 H2. rewrite rain_eval by congruence. eexists. split; [reflexivity|]. split; reflexivity. Qed.

(** with threshold 0 these are the rates of the wet/dry metrics *)
Lemma rain_wd_agree (r p : list O) n : length r = n -> length p = n ->
  exists e w, calc_rain_error_performance_metrics (mk_arr [n] r) (mk_arr [n] p) zero = Ok e /\
  calc_wet_dry_performance_metrics (mk_arr [n] r) (mk_arr [n] p) = Ok w /\
  re_false_wet_rate e = wd_false_wet_rate w /\ re_missed_wet_rate e = wd_missed_wet_rate w /\
  re_N_all_pairs e = N_all_pairs w /\ re_N_nan_pairs e = N_nan_pairs w /\
  re_N_nan_reference_only e = N_nan_reference_only w /\ re_N_nan_predicted_only e = N_nan_predicted_only w.
Proof.
  intros H1 H2. rewrite rain_eval, wd_eval by congruence. do 2 eexists. split; [reflexivity|]. split; [reflexivity|]. cbn. repeat split; reflexivity.
Qed.

Section Laws.
Context (S : numsem O).
(** the documented classes differ from the implemented ones only for values equal to the threshold *)
Lemma strict_vs_documented (t x : O) : n_isnan t = false -> n_isnan x = false -> n_eqb x t = false -> n_leb t x = n_ltb t x.
Proof.
  intros Ht Hx He. rewrite (val_leb _ S), (val_ltb _ S). rewrite (val_isnan _ S) in *. rewrite (val_eqb _ S) in He.
  destruct (val S t) as [| |a|], (val S x) as [| |b|]; try discriminate; auto. cbn in *. xcases; auto; lra.
Qed.
Lemma valid_present (r p : list O) q : In q (valid_pairs r p) -> n_isnan (fst q) = false /\ n_isnan (snd q) = false.
Proof. unfold valid_pairs. intros H. apply filter_In in H. destruct H as [_ H]. apply andb_true_iff in H. rewrite !negb_true_iff in H. exact H. Qed.
Lemma rain_rates_documented (r p : list O) n t : length r = n -> length p = n -> n_isnan t = false ->
  (forall x, In x r \/ In x p -> n_eqb x t = false) ->
  exists e, calc_rain_error_performance_metrics (mk_arr [n] r) (mk_arr [n] p) t = Ok e /\
  let ps := valid_pairs r p in
  re_false_wet_rate e = n_div (n_count (count (fun q => negb (n_leb t (fst q)) && n_leb t (snd q)) ps)) (n_count (count (fun q => negb (n_leb t (fst q))) ps)) /\
  re_missed_wet_rate e = n_div (n_count (count (fun q => n_leb t (fst q) && negb (n_leb t (snd q))) ps)) (n_count (count (fun q => n_leb t (fst q)) ps)).
Proof.
  intros H1 H2 Ht HE. destruct (rain_rates r p n t H1 H2) as (e & E & F1 & F2). exists e. split; auto. cbv zeta. rewrite F1, F2.
  assert (K : forall q, In q (valid_pairs r p) -> n_leb t (fst q) = n_ltb t (fst q) /\ n_leb t (snd q) = n_ltb t (snd q)).
  { intros q Hq. pose proof (valid_present r p q Hq) as [N1 N2]. unfold valid_pairs in Hq. apply filter_In in Hq. destruct Hq as [Hq _].
    destruct q as [x y]. pose proof (in_combine_l _ _ _ _ Hq). pose proof (in_combine_r _ _ _ _ Hq).
    split; apply strict_vs_documented; auto. }
  split; f_equal; f_equal; apply count_ext; intros q Hq; destruct (K q Hq) as [K1 K2]; rewrite ?K1, ?K2; reflexivity.
Qed.

(** the Pearson correlation is clipped *)
Lemma corr_range (a b : list O) : n_isnan (np_corrcoef a b) = true \/ (n_leb (n_ofZ (-1)) (np_corrcoef a b) = true /\ n_leb (np_corrcoef a b) (n_ofZ 1) = true).
Proof.
  unfold np_corrcoef, np_clip. set (x := n_div (n_div (np_cov a b) _) _). destruct (n_isnan x) eqn:N; [left; auto|right].
  assert (A : n_isnan (n_ofZ (-1) : O) = false) by (apply (isnan_ofZ S); simpl; lia).
  assert (B : n_isnan (n_ofZ 1 : O) = false) by (apply (isnan_ofZ S); simpl; lia).
  assert (C : n_leb (n_ofZ (-1) : O) (n_ofZ 1) = true).
  { rewrite (val_leb _ S), !(val_ofZ _ S) by (simpl; lia). cbn. apply Rle_bool_true. lra. }
  change (one : O) with (n_ofZ 1 : O).
  destruct (n_ltb x (n_ofZ (-1))) eqn:L.
  - destruct (n_ltb (n_ofZ 1) (n_ofZ (-1) : O)) eqn:L2; [split; [exact C|apply (leb_refl S); exact B]|].
    split; [apply (leb_refl S); auto|]. exact C.
  - assert (LX : n_leb (n_ofZ (-1)) x = true) by (apply (ltb_false_leb S); auto).
    destruct (n_ltb (n_ofZ 1) x) eqn:L2; [split; [exact C|apply (leb_refl S); exact B]|].
    split; auto. apply (ltb_false_leb S); auto.
Qed.
Lemma rain_pearson_range (r p : list O) n t : length r = n -> length p = n ->
  exists e, calc_rain_error_performance_metrics (mk_arr [n] r) (mk_arr [n] p) t = Ok e /\
  (n_isnan (pearson_correlation e) = true \/ (n_leb (n_ofZ (-1)) (pearson_correlation e) = true /\ n_leb (pearson_correlation e) (n_ofZ 1) = true)).
Proof. intros H1 H2. rewrite rain_eval by congruence. eexists. split; [reflexivity|]. cbn. apply corr_range. Qed.
End Laws.
End Any.

(** ** exact arithmetic *)
Lemma real_pairs_exist r p : no_inf r -> no_inf p -> exists ps, real_pairs r p ps.
Proof.
  intros Hr Hp. unfold real_pairs.
  assert (H : forall q, In q (valid_pairs r p) -> exists a b : R, q = ((XFin a : XR), (XFin b : XR))).
  { intros [x y] Hq. destruct (valid_present r p _ Hq) as [N1 N2]. unfold valid_pairs in Hq. apply filter_In in Hq. destruct Hq as [Hq _].
    pose proof (Hr _ (in_combine_l _ _ _ _ Hq)) as I1. pose proof (Hp _ (in_combine_r _ _ _ _ Hq)) as I2.
    cbn [fst snd] in *. destruct x as [| |a|]; try discriminate. destruct y as [| |b|]; try discriminate. eauto. }
  induction (valid_pairs r p) as [|q l IH]; [exists []; reflexivity|].
  destruct IH as [ps E]; [intros; apply H; right; auto|]. destruct (H q (or_introl eq_refl)) as (a & b & ->).
  exists ((a, b) :: ps). cbn [map fst snd]. rewrite E. reflexivity.
Qed.

Lemma rp_fst r p ps : real_pairs r p ps -> map fst (valid_pairs r p) = ofR (map fst ps).
Proof. intros ->. unfold ofR. rewrite !map_map. reflexivity. Qed.
Lemma rp_snd r p ps : real_pairs r p ps -> map snd (valid_pairs r p) = ofR (map snd ps).
Proof. intros ->. unfold ofR. rewrite !map_map. reflexivity. Qed.
Lemma sub_ofR ps : v_sub (ofR (map snd ps)) (ofR (map fst ps)) = ofR (diffs ps).
Proof. induction ps as [|[a b] ps IH]; auto. unfold v_sub, map2, diffs, ofR in *. cbn [map combine fst snd]. rewrite IH. reflexivity. Qed.
Lemma square_ofR l : v_square (ofR l) = ofR (map (fun x => x * x)%R l).
Proof. unfold v_square, ofR. rewrite !map_map. reflexivity. Qed.
Lemma abs_ofR l : map n_abs (ofR l) = ofR (map Rabs l).
Proof. unfold ofR. rewrite !map_map. reflexivity. Qed.
Lemma centered_ofR l : l <> [] -> centered (ofR l) = ofR (map (fun x => x - rmean l)%R l).
Proof. intros H. unfold centered. rewrite n_mean_ofR by auto. unfold ofR. rewrite !map_map. reflexivity. Qed.
Lemma map_nil_iff {A B} (f : A -> B) l : l <> [] -> map f l <> [].
Proof. destruct l; [congruence|discriminate]. Qed.
Lemma sqrt_fin (x : R) : (0 <= x)%R -> n_sqrt (XFin x : XR) = (XFin (sqrt x) : XR).
Proof. intros H. change (n_sqrt (XFin x : XR)) with (xsqrt (XFin x)). unfold xsqrt. rewrite Rlt_bool_false by auto. reflexivity. Qed.

Lemma rsum_sq_nonneg l : (0 <= rsum (map (fun x => x * x) l))%R.
Proof. induction l; cbn; [lra|]. fold (rsum (map (fun x => x * x)%R l)). nra. Qed.
Lemma rmean_sq_nonneg l : (0 <= rmean (map (fun x => x * x) l))%R.
Proof.
  unfold rmean. pose proof (rsum_sq_nonneg l). pose proof (pos_INR (length (map (fun x => x * x)%R l))) as P.
  destruct P as [P|P]; [apply Rmult_le_pos; auto; apply Rlt_le, Rinv_0_lt_compat; auto|]. rewrite <- P. unfold Rdiv. rewrite Rinv_0. lra.
Qed.


Lemma abs_sq x : (Rabs x * Rabs x = x * x)%R.
Proof. unfold Rabs. destruct (Rcase_abs x); ring. Qed.
Lemma rain_values r p ps n t : length r = n -> length p = n -> real_pairs r p ps -> ps <> [] ->
  exists e, calc_rain_error_performance_metrics (mk_arr [n] r) (mk_arr [n] p) t = Ok e /\
  root_mean_square_error e = (XFin (RMSE ps) : XR) /\ mean_absolute_error e = (XFin (MAE ps) : XR) /\
  R_sum_reference e = (XFin (rsum (map fst ps)) : XR) /\ R_sum_predicted e = (XFin (rsum (map snd ps)) : XR) /\
  R_mean_reference e = (XFin (rmean (map fst ps)) : XR) /\ R_mean_predicted e = (XFin (rmean (map snd ps)) : XR) /\
  coefficient_of_variation e = xdiv (XFin (STD (diffs ps))) (XFin (rmean (map fst ps))) /\
  pearson_correlation e = np_corrcoef (ofR (map fst ps)) (ofR (map snd ps)).
Proof.
  intros H1 H2 HP Hne. rewrite rain_eval by congruence. eexists. split; [reflexivity|]. cbn [root_mean_square_error mean_absolute_error R_sum_reference R_sum_predicted R_mean_reference R_mean_predicted coefficient_of_variation pearson_correlation].
  rewrite (rp_fst _ _ _ HP), (rp_snd _ _ _ HP), sub_ofR.
  assert (Hd : diffs ps <> []) by (apply map_nil_iff; auto).
  rewrite square_ofR, abs_ofR, !n_sum_ofR, !n_mean_ofR by (repeat apply map_nil_iff; auto).
  rewrite sqrt_fin by apply rmean_sq_nonneg.
  do 6 (split; [reflexivity|]). split; [|reflexivity].
  unfold np_std. rewrite centered_ofR, abs_ofR, square_ofR, n_mean_ofR by (repeat apply map_nil_iff; auto).
  rewrite sqrt_fin by apply rmean_sq_nonneg. rewrite !map_map. unfold STD.
  rewrite (map_ext _ (fun x => (x - rmean (diffs ps)) * (x - rmean (diffs ps)))%R) by (intros; apply abs_sq). reflexivity.
Qed.

Lemma rsum_cons' x l : rsum (x :: l) = (x + rsum l)%R.
Proof. reflexivity. Qed.
(** Jensen *)
Lemma rsum_map_add {A} (f g : A -> R) l : rsum (map (fun x => f x + g x)%R l) = (rsum (map f l) + rsum (map g l))%R.
Proof. induction l; cbn [map]; [cbn; lra|]. cbn [rsum fold_right]. fold (rsum (map (fun x => f x + g x)%R l)). fold (rsum (map f l)). fold (rsum (map g l)). rewrite IHl. lra. Qed.
Lemma rsum_map_scal {A} (f : A -> R) c l : rsum (map (fun x => c * f x)%R l) = (c * rsum (map f l))%R.
Proof. induction l; cbn [map]; [cbn; lra|]. cbn [rsum fold_right]. fold (rsum (map (fun x => c * f x)%R l)). fold (rsum (map f l)). rewrite IHl. lra. Qed.
Lemma rsum_map_const {A} c (l : list A) : rsum (map (fun _ => c) l) = (c * INR (length l))%R.
Proof. induction l; cbn [map]; [cbn; lra|]. cbn [rsum fold_right]. fold (rsum (map (fun _ : A => c) l)). rewrite IHl. cbn [length]. rewrite S_INR. lra. Qed.
Lemma rsum_map_ext' {A} (f g : A -> R) l : (forall x, In x l -> f x = g x) -> rsum (map f l) = rsum (map g l).
Proof. intros H. f_equal. apply map_ext_in; auto. Qed.
Lemma INR_length_pos {A} (l : list A) : l <> [] -> (0 < INR (length l))%R.
Proof. intros. apply lt_0_INR. destruct l; [congruence|cbn; lia]. Qed.

(** mean of squares = square of the mean + mean squared deviation *)
Lemma variance_identity l : l <> [] ->
  rmean (map (fun x => x * x)%R l) = (rmean l * rmean l + rmean (map (fun x => (x - rmean l) * (x - rmean l))%R l))%R.
Proof.
  intros H. pose proof (INR_length_pos l H) as P. set (m := rmean l).
  assert (E : rsum (map (fun x => (x - m) * (x - m))%R l) = (rsum (map (fun x => x * x)%R l) - m * m * INR (length l))%R).
  { rewrite (rsum_map_ext' _ (fun x => x * x + ((-2 * m) * x + m * m))%R) by (intros; ring).
    rewrite rsum_map_add, rsum_map_add, rsum_map_scal, rsum_map_const. rewrite map_id.
    assert (S1 : rsum l = (m * INR (length l))%R) by (unfold m, rmean; field; lra). rewrite S1. ring. }
  unfold rmean. rewrite !map_length, E. field. lra.
Qed.
Lemma mean_sq_le l : l <> [] -> (rmean l * rmean l <= rmean (map (fun x => x * x) l))%R.
Proof.
  intros H. rewrite variance_identity by auto.
  assert (0 <= rmean (map (fun x => (x - rmean l) * (x - rmean l))%R l))%R; [|lra].
  rewrite <- (map_map (fun x => x - rmean l)%R (fun x => x * x)%R). apply rmean_sq_nonneg.
Qed.
Lemma rsum_abs_zero l : rsum (map Rabs l) = 0%R -> forall x, In x l -> x = 0%R.
Proof.
  assert (N : forall l, (0 <= rsum (map Rabs l))%R).
  { clear. induction l; cbn; [lra|]. fold (rsum (map Rabs l)). pose proof (Rabs_pos a). lra. }
  induction l as [|a l IH]; intros H x []; cbn in H; fold (rsum (map Rabs l)) in H; pose proof (N l); pose proof (Rabs_pos a).
  - subst. destruct (Req_dec x 0) as [|NZ]; auto. pose proof (Rabs_pos_lt x NZ). lra.
  - apply IH; auto. lra.
Qed.
Lemma rsum_triangle l : (Rabs (rsum l) <= rsum (map Rabs l))%R.
Proof. induction l; cbn; [rewrite Rabs_R0; lra|]. fold (rsum l). fold (rsum (map Rabs l)). pose proof (Rabs_triang a (rsum l)). lra. Qed.
Lemma rsum_diffs ps : rsum (diffs ps) = (rsum (map snd ps) - rsum (map fst ps))%R.
Proof. induction ps as [|[a b] ps IH]; [cbn; lra|]. unfold diffs in *. cbn in *. fold (rsum (map (fun p => snd p - fst p)%R ps)) in *. fold (rsum (map snd ps)) in *. fold (rsum (map fst ps)) in *. lra. Qed.
Lemma rmean_diffs ps : rmean (diffs ps) = (rmean (map snd ps) - rmean (map fst ps))%R.
Proof. unfold rmean. rewrite rsum_diffs. unfold diffs. rewrite !map_length. unfold Rdiv. ring. Qed.


Lemma MAE_RMSE ps : ps <> [] ->
  (0 <= MAE ps <= RMSE ps)%R /\
  (RMSE ps = 0 <-> (forall q, In q ps -> fst q = snd q))%R /\ (MAE ps = 0 <-> (forall q, In q ps -> fst q = snd q))%R /\
  (Rabs (rmean (map snd ps) - rmean (map fst ps)) <= MAE ps)%R /\
  (RMSE ps * RMSE ps = (rmean (map snd ps) - rmean (map fst ps)) * (rmean (map snd ps) - rmean (map fst ps)) + STD (diffs ps) * STD (diffs ps))%R.
Proof.
  intros H. assert (Hd : diffs ps <> []) by (apply map_nil_iff; auto). pose proof (INR_length_pos _ Hd) as P.
  assert (A0 : (0 <= MAE ps)%R).
  { unfold MAE. apply (rmean_bounds _ 0 (rsum (map Rabs (diffs ps)))); [repeat apply map_nil_iff; auto|].
    intros x Hx. assert (0 <= x)%R by (apply in_map_iff in Hx; destruct Hx as (y & <- & _); apply Rabs_pos).
    split; auto. clear - Hx. induction (diffs ps) as [|a l IH]; [destruct Hx|]. cbn in *. fold (rsum (map Rabs l)).
    assert (0 <= rsum (map Rabs l))%R. { clear. induction l; cbn; [lra|]. fold (rsum (map Rabs l)). pose proof (Rabs_pos a). lra. }
    pose proof (Rabs_pos a). destruct Hx as [<-|Hx]; [lra|]. specialize (IH Hx). lra. }
  assert (SQ : map (fun d => d * d)%R (diffs ps) = map (fun x => x * x)%R (map Rabs (diffs ps))).
  { rewrite map_map. apply map_ext. intros; symmetry; apply abs_sq. }
  assert (RR : (RMSE ps * RMSE ps = rmean (map (fun d => d * d) (diffs ps)))%R) by (unfold RMSE; apply sqrt_sqrt, rmean_sq_nonneg).
  assert (R0 : (0 <= RMSE ps)%R) by apply sqrt_pos.
  assert (LE : (MAE ps <= RMSE ps)%R).
  { pose proof (mean_sq_le (map Rabs (diffs ps)) ltac:(apply map_nil_iff; auto)) as J. rewrite <- SQ, <- RR in J. fold (MAE ps) in J. nra. }
  assert (MZ : (MAE ps = 0 -> forall q, In q ps -> fst q = snd q)%R).
  { intros Z q Hq. unfold MAE, rmean in Z. rewrite map_length in Z.
    assert (Z' : rsum (map Rabs (diffs ps)) = 0%R).
    { apply (Rmult_eq_reg_r (/ INR (length (diffs ps)))); [|apply Rinv_neq_0_compat; lra]. unfold Rdiv in Z. lra. }
    pose proof (rsum_abs_zero _ Z' (snd q - fst q)%R) as K. assert (In (snd q - fst q)%R (diffs ps)) by (apply in_map_iff; exists q; auto). specialize (K H0). lra. }
  assert (ZD : ((forall q, In q ps -> fst q = snd q) -> RMSE ps = 0)%R).
  { intros K. unfold RMSE. assert (E : map (fun d => d * d)%R (diffs ps) = map (fun _ => 0%R) (diffs ps)).
    { apply map_ext_in. intros d Hd'. apply in_map_iff in Hd'. destruct Hd' as (q & <- & Hq). rewrite (K q Hq). ring. }
    rewrite E. unfold rmean. rewrite rsum_map_const. rewrite Rmult_0_l. unfold Rdiv. rewrite Rmult_0_l. apply sqrt_0. }
  split; [lra|]. split; [split; [intros Z; apply MZ; lra|auto]|]. split; [split; [auto|intros K; specialize (ZD K); lra]|]. split.
  - rewrite <- rmean_diffs. unfold MAE, rmean. rewrite map_length. unfold Rdiv. rewrite Rabs_mult, (Rabs_pos_eq (/ _)) by (apply Rlt_le, Rinv_0_lt_compat; auto).
    apply Rmult_le_compat_r; [apply Rlt_le, Rinv_0_lt_compat; auto|]. apply rsum_triangle.
  - rewrite RR, variance_identity, rmean_diffs by auto. f_equal. unfold STD.
    rewrite sqrt_sqrt by (rewrite <- (map_map (fun x => x - rmean (diffs ps)) (fun x => x * x))%R; apply rmean_sq_nonneg).
    rewrite rmean_diffs. reflexivity.
Qed.

Lemma rain_errors r p ps n t : length r = n -> length p = n -> real_pairs r p ps -> ps <> [] ->
  exists e, calc_rain_error_performance_metrics (mk_arr [n] r) (mk_arr [n] p) t = Ok e /\
  mean_absolute_error e = (XFin (MAE ps) : XR) /\ root_mean_square_error e = (XFin (RMSE ps) : XR) /\
  R_mean_reference e = (XFin (rmean (map fst ps)) : XR) /\ R_mean_predicted e = (XFin (rmean (map snd ps)) : XR) /\
  R_sum_reference e = (XFin (INR (length ps) * rmean (map fst ps)) : XR) /\ R_sum_predicted e = (XFin (INR (length ps) * rmean (map snd ps)) : XR) /\
  (0 <= MAE ps <= RMSE ps)%R /\
  (RMSE ps = 0 <-> (forall q, In q ps -> fst q = snd q))%R /\ (MAE ps = 0 <-> (forall q, In q ps -> fst q = snd q))%R /\
  (Rabs (rmean (map snd ps) - rmean (map fst ps)) <= MAE ps)%R.
Proof.
  intros H1 H2 HP Hne. destruct (rain_values r p ps n t H1 H2 HP Hne) as (e & E & V1 & V2 & V3 & V4 & V5 & V6 & _).
  destruct (MAE_RMSE ps Hne) as (M1 & M2 & M3 & M4 & _). exists e.
  assert (SM : forall f : R * R -> R, rsum (map f ps) = (INR (length ps) * rmean (map f ps))%R).
  { intros f. unfold rmean. rewrite map_length. pose proof (INR_length_pos ps Hne). field. lra. }
  rewrite <- !SM. repeat (split; [assumption|]). assumption.
Qed.
Lemma rain_decomposition r p ps n t : length r = n -> length p = n -> real_pairs r p ps -> ps <> [] -> rmean (map fst ps) <> 0%R ->
  exists e rm cv mr mp, calc_rain_error_performance_metrics (mk_arr [n] r) (mk_arr [n] p) t = Ok e /\
  root_mean_square_error e = (XFin rm : XR) /\ coefficient_of_variation e = (XFin cv : XR) /\
  R_mean_reference e = (XFin mr : XR) /\ R_mean_predicted e = (XFin mp : XR) /\
  (rm ^ 2 = (mp - mr) ^ 2 + (cv * mr) ^ 2)%R.
Proof.
  intros H1 H2 HP Hne HM. destruct (rain_values r p ps n t H1 H2 HP Hne) as (e & E & V1 & V2 & V3 & V4 & V5 & V6 & V7 & _).
  destruct (MAE_RMSE ps Hne) as (_ & _ & _ & _ & M5).
  exists e, (RMSE ps), (STD (diffs ps) / rmean (map fst ps))%R, (rmean (map fst ps)), (rmean (map snd ps)).
  repeat (split; [assumption|]). split; [rewrite V7; unfold xdiv; rewrite Req_bool_false by auto; reflexivity|].
  repeat (split; [assumption|]). replace (STD (diffs ps) / rmean (map fst ps) * rmean (map fst ps))%R with (STD (diffs ps)) by (field; auto).
  simpl. rewrite !Rmult_1_r. lra.
Qed.
