(** * Float64 rain metrics of two series: proofs *)
From Coq Require Import Reals Lra Lia ZArith Bool List Permutation.
From Flocq Require Import Core.
From Verif Require Import Base Num NumF64 NumList NpOps RealStat Stats_model Stats_spec HaversineFloat_spec FloatErr_spec FloatErr_proofs StatsErr_spec MetricErr_spec MetricStable_proofs.
From Verif Require MetricSym_proofs StatsErr_props MetricAffine_proofs Stats_proofs3.
Import ListNotations.
Local Open Scope R_scope.

(** ** the same pairs in another order *)
Lemma pairs_perm (es es' : list (F64 * F64)) : Permutation es es' -> forall qs, Forall2 (fun e q => is_num (fst e) (fst q) /\ is_num (snd e) (snd q)) es qs ->
  exists qs', Permutation qs qs' /\ Forall2 (fun e q => is_num (fst e) (fst q) /\ is_num (snd e) (snd q)) es' qs'.
Proof.
  intros P. induction P as [|x l l' P IH|x y l|l l' l'' P1 IH1 P2 IH2]; intros qs H.
  - inversion H; subst. exists []. split; constructor.
  - inversion H as [|? q ? s X T]; subst. destruct (IH _ T) as (s' & Q & K). exists (q :: s'). split; constructor; auto.
  - inversion H as [|? a ? s X T]; subst. inversion T as [|? b ? s' X' T']; subst. exists (b :: a :: s'). split; [constructor|]. constructor; [exact X'|constructor; [exact X|exact T']].
  - destruct (IH1 _ H) as (s & Q & K). destruct (IH2 _ K) as (s' & Q' & K'). exists s'. split; [eapply perm_trans; eauto|auto].
Qed.
Lemma rmean_perm l l' : Permutation l l' -> rmean l = rmean l'.
Proof. intros P. unfold rmean. rewrite (rsum_perm _ _ P), (Permutation_length P). reflexivity. Qed.
Lemma MAE_perm qs qs' : Permutation qs qs' -> MAE qs = MAE qs'.
Proof. intros P. unfold MAE, diffs. apply rmean_perm. do 2 apply Permutation_map. exact P. Qed.
Lemma RMSE_perm qs qs' : Permutation qs qs' -> RMSE qs = RMSE qs'.
Proof. intros P. unfold RMSE, diffs. f_equal. apply rmean_perm. do 2 apply Permutation_map. exact P. Qed.
Lemma twice c a n x s v v' : within c a n x s v -> within c a n x s v' -> within (2 * c) (2 * a) n v s v'.
Proof.
  unfold within. intros H H'. apply Rabs_le_inv in H, H'. set (k := INR n / 2 ^ 53 * s).
  replace (c * INR n / 2 ^ 53 * s) with (c * k) in * by (unfold k; field). replace (2 * c * INR n / 2 ^ 53 * s) with (2 * (c * k)) by (unfold k; field). apply Rabs_le. lra.
Qed.
Lemma half_pow k : 2 * / 2 ^ (S k) = / 2 ^ k.
Proof. rewrite <- tech_pow_Rmult, Rinv_mult. lra. Qed.

Lemma order_close r p r' p' qs n t : length r = n -> length p = n -> length r' = n -> length p' = n -> Permutation (combine r p) (combine r' p') ->
  float_pairs r p qs -> qs <> [] -> INR (length qs) <= 2 ^ 20 -> (forall q, In q qs -> Rabs (fst q) <= 2 ^ 200 /\ Rabs (snd q) <= 2 ^ 200) ->
  exists e e' a s x y a' s' x' y',
  calc_rain_error_performance_metrics (mk_arr [n] r) (mk_arr [n] p) t = Ok e /\ calc_rain_error_performance_metrics (mk_arr [n] r') (mk_arr [n] p') t = Ok e' /\
  is_num (mean_absolute_error e) a /\ is_num (root_mean_square_error e) s /\ is_num (R_mean_reference e) x /\ is_num (R_mean_predicted e) y /\
  is_num (mean_absolute_error e') a' /\ is_num (root_mean_square_error e') s' /\ is_num (R_mean_reference e') x' /\ is_num (R_mean_predicted e') y' /\
  within 10 (/ 2 ^ 1069) (length qs) a (MAE qs) a' /\ within 20 (/ 2 ^ 529) (length qs) s (RMSE qs) s' /\
  within 8 (/ 2 ^ 1071) (length qs) x (rmean (map Rabs (map fst qs))) x' /\
  within 8 (/ 2 ^ 1071) (length qs) y (rmean (map Rabs (map snd qs))) y' /\
  ((forall q, In q qs -> fst q = snd q) -> a = 0 /\ s = 0 /\ a' = 0 /\ s' = 0).
Proof.
  intros L1 L2 L3 L4 P F NE FW MD.
  assert (PV : Permutation (valid_pairs r p) (valid_pairs r' p')) by (apply Local_proofs.filter_perm, P).
  destruct (pairs_perm _ _ PV _ F) as (qs' & PQ & F').
  assert (NE' : qs' <> []) by (intros ->; apply NE; apply Permutation_nil, Permutation_sym, PQ).
  assert (LQ : length qs = length qs') by (apply Permutation_length, PQ).
  assert (MD' : forall q, In q qs' -> Rabs (fst q) <= 2 ^ 200 /\ Rabs (snd q) <= 2 ^ 200) by (intros q Hq; apply MD; eapply Permutation_in; [apply Permutation_sym, PQ|exact Hq]).
  destruct (StatsErr_props.C54_float_errors r p qs n t L1 L2 F NE FW MD) as (e & a & s & x & y & E & A1 & A2 & A3 & A4 & _ & _ & W1 & W2 & W3 & W4 & Z & _).
  destruct (StatsErr_props.C54_float_errors r' p' qs' n t L3 L4 F' NE' ltac:(rewrite <- LQ; exact FW) MD') as (e' & a' & s' & x' & y' & E' & B1 & B2 & B3 & B4 & _ & _ & V1 & V2 & V3 & V4 & Z' & _).
  rewrite <- LQ in V1, V2, V3, V4. rewrite <- (MAE_perm _ _ PQ) in V1. rewrite <- (RMSE_perm _ _ PQ) in V2.
  rewrite <- !(rmean_perm (map fst qs) (map fst qs')), <- !(rmean_perm (map Rabs (map fst qs)) (map Rabs (map fst qs'))) in V3 by (repeat apply Permutation_map; exact PQ).
  rewrite <- !(rmean_perm (map snd qs) (map snd qs')), <- !(rmean_perm (map Rabs (map snd qs)) (map Rabs (map snd qs'))) in V4 by (repeat apply Permutation_map; exact PQ).
  exists e, e', a, s, x, y, a', s', x', y'. do 10 (split; [assumption|]).
  pose proof (twice _ _ _ _ _ _ _ W1 V1) as T1. pose proof (twice _ _ _ _ _ _ _ W2 V2) as T2. pose proof (twice _ _ _ _ _ _ _ W3 V3) as T3. pose proof (twice _ _ _ _ _ _ _ W4 V4) as T4.
  rewrite half_pow in T1, T2, T3, T4.
  replace (2 * 5) with 10 in T1 by lra. replace (2 * 10) with 20 in T2 by lra. replace (2 * 4) with 8 in T3, T4 by lra.
  do 4 (split; [assumption|]). intros Q. destruct (Z Q) as [Z1 Z2].
  destruct Z' as [Z3 Z4]; [|auto]. intros q Hq. apply Q. eapply Permutation_in; [apply Permutation_sym, PQ|exact Hq].
Qed.

(** ** two series *)
Lemma apart c a n x x' s s' v v' d : Rabs (x' - x) <= d -> within c a n x s v -> within c a n x' s' v' ->
  Rabs (v' - v) <= d + c * INR n / 2 ^ 53 * (s + s') + 2 * a.
Proof.
  unfold within. intros D H H'. apply Rabs_le_inv in D, H, H'. rewrite Rmult_plus_distr_l. apply Rabs_le. lra.
Qed.

Lemma series_close qr qp r p r' p' qs qs' n t : length r = n -> length p = n -> length r' = n -> length p' = n ->
  float_pairs r p qs -> float_pairs r' p' qs' -> pairs_off_by qr qp qs qs' -> qs <> [] -> INR (length qs) <= 2 ^ 20 ->
  (forall q, In q (qs ++ qs') -> Rabs (fst q) <= 2 ^ 200 /\ Rabs (snd q) <= 2 ^ 200) ->
  let k := INR (length qs) / 2 ^ 53 in let means f := rmean (map Rabs (map f qs)) + rmean (map Rabs (map f qs')) in
  exists e e' a s x y a' s' x' y',
  calc_rain_error_performance_metrics (mk_arr [n] r) (mk_arr [n] p) t = Ok e /\ calc_rain_error_performance_metrics (mk_arr [n] r') (mk_arr [n] p') t = Ok e' /\
  is_num (mean_absolute_error e) a /\ is_num (root_mean_square_error e) s /\ is_num (R_mean_reference e) x /\ is_num (R_mean_predicted e) y /\
  is_num (mean_absolute_error e') a' /\ is_num (root_mean_square_error e') s' /\ is_num (R_mean_reference e') x' /\ is_num (R_mean_predicted e') y' /\
  Rabs (a' - a) <= (qr + qp) + 5 * k * (MAE qs + MAE qs') + / 2 ^ 1069 /\
  Rabs (s' - s) <= (qr + qp) + 10 * k * (RMSE qs + RMSE qs') + / 2 ^ 529 /\
  Rabs (x' - x) <= qr + 4 * k * means fst + / 2 ^ 1071 /\ Rabs (y' - y) <= qp + 4 * k * means snd + / 2 ^ 1071.
Proof.
  intros L1 L2 L3 L4 F F' C NE FW MD k means.
  assert (LQ : length qs = length qs') by (clear -C; induction C; cbn; congruence).
  assert (NE' : qs' <> []) by (intros ->; destruct qs; [congruence|discriminate]).
  destruct (StatsErr_props.C54_float_errors r p qs n t L1 L2 F NE FW ltac:(intros q Hq; apply MD, in_or_app; left; exact Hq)) as (e & a & s & x & y & E & A1 & A2 & A3 & A4 & _ & _ & W1 & W2 & W3 & W4 & _ & _).
  destruct (StatsErr_props.C54_float_errors r' p' qs' n t L3 L4 F' NE' ltac:(rewrite <- LQ; exact FW) ltac:(intros q Hq; apply MD, in_or_app; right; exact Hq)) as (e' & a' & s' & x' & y' & E' & B1 & B2 & B3 & B4 & _ & _ & V1 & V2 & V3 & V4 & _ & _).
  rewrite <- LQ in V1, V2, V3, V4. exists e, e', a, s, x, y, a', s', x', y'. do 10 (split; [assumption|]).
  assert (G : Forall2 (pair_near qr qp) qs qs') by exact C.
  destruct (errors_up _ _ _ _ G NE) as [U1 U2]. destruct (errors_up _ _ _ _ (near_sym_pairs _ _ _ _ G) NE') as [U3 U4].
  assert (F1 : Forall2 (fun a b : R * R => Rabs (fst b - fst a) <= qr) qs qs') by (clear -G; induction G as [|? ? ? ? []]; constructor; auto).
  assert (F2 : Forall2 (fun a b : R * R => Rabs (snd b - snd a) <= qp) qs qs') by (clear -G; induction G as [|? ? ? ? []]; constructor; auto).
  pose proof (apart _ _ _ (MAE qs) (MAE qs') _ _ _ _ (qr + qp) ltac:(apply Rabs_le; lra) W1 V1) as T1.
  pose proof (apart _ _ _ (RMSE qs) (RMSE qs') _ _ _ _ (qr + qp) ltac:(apply Rabs_le; lra) W2 V2) as T2.
  pose proof (apart _ _ _ _ _ _ _ _ _ qr (mean_close fst qs qs' qr NE F1) W3 V3) as T3.
  pose proof (apart _ _ _ _ _ _ _ _ _ qp (mean_close snd qs qs' qp NE F2) W4 V4) as T4.
  rewrite half_pow in T1, T2, T3, T4. unfold Rdiv in T1, T2, T3, T4. rewrite (Rmult_assoc _ (INR _) _) in T1. rewrite (Rmult_assoc _ (INR _) _) in T2. rewrite (Rmult_assoc _ (INR _) _) in T3. rewrite (Rmult_assoc _ (INR _) _) in T4. do 3 (split; [assumption|]). assumption.
Qed.

(** ** the difference of the means *)
Lemma bias_close r p qs n t : length r = n -> length p = n -> float_pairs r p qs -> qs <> [] -> INR (length qs) <= 2 ^ 20 -> (forall q, In q qs -> Rabs (fst q) <= 2 ^ 200 /\ Rabs (snd q) <= 2 ^ 200) ->
  let k := INR (length qs) / 2 ^ 53 in let both := rmean (map Rabs (map fst qs)) + rmean (map Rabs (map snd qs)) in
  exists e a s x y, calc_rain_error_performance_metrics (mk_arr [n] r) (mk_arr [n] p) t = Ok e /\
  is_num (mean_absolute_error e) a /\ is_num (root_mean_square_error e) s /\ is_num (R_mean_reference e) x /\ is_num (R_mean_predicted e) y /\
  Rabs (y - x - (rmean (map snd qs) - rmean (map fst qs))) <= 4 * k * both + / 2 ^ 1071 /\
  Rabs (y - x) <= a + 5 * k * MAE qs + 4 * k * both + / 2 ^ 1069 /\ Rabs (y - x) <= s + 10 * k * RMSE qs + 4 * k * both + / 2 ^ 529.
Proof.
  intros L1 L2 F NE FW MD k both.
  destruct (StatsErr_props.C54_float_errors r p qs n t L1 L2 F NE FW MD) as (e & a & s & x & y & E & A1 & A2 & A3 & A4 & _ & _ & W1 & W2 & W3 & W4 & _ & _).
  destruct (Stats_proofs3.MAE_RMSE qs NE) as (D1 & _ & _ & D2 & _). exists e, a, s, x, y. do 5 (split; [assumption|]).
  pose proof (half_pow 1071) as P1. pose proof (half_pow 1070) as P2. pose proof (half_pow 1069) as P3. pose proof (half_pow 529) as P4.
  assert (Q : forall j, 0 < / 2 ^ j) by (intros j; apply Rinv_0_lt_compat, pow_lt; lra). pose proof (Q 1072%nat) as Q1. pose proof (Q 1070%nat) as Q2. pose proof (Q 530%nat) as Q3.
  assert (P5 : / 2 ^ 1071 <= / 2 ^ 530) by (apply Rinv_le_contravar; [apply pow_lt; lra|apply Rle_pow; [lra|lia]]).
  unfold within, Rdiv in *. fold k in W1, W2, W3, W4. rewrite (Rmult_assoc _ (INR _) _) in W1. rewrite (Rmult_assoc _ (INR _) _) in W2. rewrite (Rmult_assoc _ (INR _) _) in W3. rewrite (Rmult_assoc _ (INR _) _) in W4. fold k in W1, W2, W3, W4. unfold both. clear Q.
  set (X := / 2 ^ 1072) in *. set (X1 := / 2 ^ 1071) in *. set (X0 := / 2 ^ 1070) in *. set (X9 := / 2 ^ 1069) in *. set (Y0 := / 2 ^ 530) in *. set (Y9 := / 2 ^ 529) in *. clearbody X X1 X0 X9 Y0 Y9 k.
  set (mr := rmean (map Rabs (map fst qs))) in *. set (mp := rmean (map Rabs (map snd qs))) in *. clearbody mr mp. rewrite (Rmult_plus_distr_l (4 * _) mr mp).
  assert (B : Rabs (y - x - (rmean (map snd qs) - rmean (map fst qs))) <= 4 * k * mr + 4 * k * mp + X1) by (apply Rabs_le_inv in W3, W4; apply Rabs_le; lra).
  apply Rabs_le_inv in W1, W2. split; [exact B|]. apply Rabs_le_inv in B, D2. split; apply Rabs_le; lra.
Qed.

(** ** a detour *)
Lemma detour d z M1 M2 M3 m1 m2 m3 : 0 <= d <= / 1000 -> 0 <= z -> 0 <= M1 -> 0 <= M2 -> M3 <= M1 + M2 ->
  Rabs (m1 - M1) <= d * M1 + z -> Rabs (m2 - M2) <= d * M2 + z -> Rabs (m3 - M3) <= d * M3 + z -> m3 <= (m1 + m2) * (1 + 2.4 * d) + 4 * z.
Proof.
  intros D Z P1 P2 T H1 H2 H3. apply Rabs_le_inv in H1, H2, H3.
  assert (A : M3 * (1 + d) <= (M1 + M2) * (1 + d)) by (apply Rmult_le_compat_r; lra).
  assert (Q : 0 <= d * (/ 1000 - d)) by (apply Rmult_le_pos; lra).
  assert (B : (M1 + M2) * (1 + d) <= (M1 + M2) * ((1 - d) * (1 + 2.4 * d))) by (apply Rmult_le_compat_l; lra).
  assert (C : ((M1 + M2) * (1 - d)) * (1 + 2.4 * d) <= (m1 + m2 + 2 * z) * (1 + 2.4 * d)) by (apply Rmult_le_compat_r; lra).
  assert (E : z * d <= z * / 1000) by (apply Rmult_le_compat_l; lra). lra.
Qed.
Lemma same_length {A B} (P : A -> B -> Prop) l l' : Forall2 P l l' -> length l = length l'.
Proof. induction 1; cbn; congruence. Qed.
Lemma isnan_of_num (w : F64) q : is_num w q -> n_isnan w = false.
Proof. intros W. pose proof (val_isnan _ F64sem w) as V. change (n_isnan w = xisnan (f_val w)) in V. rewrite V, W. reflexivity. Qed.
Lemma all_pairs (a b : list F64) ra rb : Forall2 is_num a ra -> Forall2 is_num b rb -> length a = length b -> float_pairs a b (combine ra rb).
Proof.
  intros A. revert b rb. induction A as [|x u a ra X A IH]; intros b rb B L; [constructor|]. destruct B as [|y v b rb Y B]; [discriminate|].
  assert (NN : forall (w : F64) q, is_num w q -> n_isnan w = false) by (exact isnan_of_num).
  unfold float_pairs, valid_pairs. cbn [combine filter fst snd]. rewrite (NN x u X), (NN y v Y). cbn [negb andb]. constructor; [split; assumption|]. apply IH; [exact B|]. injection L as L. exact L.
Qed.
Lemma in_pairs m (ra rb : list R) : (forall v, In v ra -> Rabs v <= m) -> (forall v, In v rb -> Rabs v <= m) -> forall q, In q (combine ra rb) -> Rabs (fst q) <= m /\ Rabs (snd q) <= m.
Proof. intros A B [u v] H. cbn. split; [apply A; eapply in_combine_l; eauto|apply B; eapply in_combine_r; eauto]. Qed.
Lemma triangle_close a b c ra rb rc n t : Forall2 is_num a ra -> Forall2 is_num b rb -> Forall2 is_num c rc -> length a = n -> length b = n -> length c = n -> n <> 0%nat -> INR n <= 2 ^ 20 ->
  (forall v, In v (ra ++ rb ++ rc) -> Rabs v <= 2 ^ 200) ->
  exists e1 e2 e3, calc_rain_error_performance_metrics (mk_arr [n] a) (mk_arr [n] b) t = Ok e1 /\ calc_rain_error_performance_metrics (mk_arr [n] b) (mk_arr [n] c) t = Ok e2 /\
  calc_rain_error_performance_metrics (mk_arr [n] a) (mk_arr [n] c) t = Ok e3 /\
  exists r1 r2 r3 m1 m2 m3, is_num (root_mean_square_error e1) r1 /\ is_num (root_mean_square_error e2) r2 /\ is_num (root_mean_square_error e3) r3 /\
  is_num (mean_absolute_error e1) m1 /\ is_num (mean_absolute_error e2) m2 /\ is_num (mean_absolute_error e3) m3 /\
  r3 <= (r1 + r2) * (1 + 24 * INR n / 2 ^ 53) + / 2 ^ 528 /\ m3 <= (m1 + m2) * (1 + 12 * INR n / 2 ^ 53) + / 2 ^ 1068.
Proof.
  intros A B C La Lb Lc Hn FW MD.
  assert (La' : length ra = n) by (rewrite <- (same_length _ _ _ A); exact La). assert (Lb' : length rb = n) by (rewrite <- (same_length _ _ _ B); exact Lb). assert (Lc' : length rc = n) by (rewrite <- (same_length _ _ _ C); exact Lc).
  assert (Ma : forall v, In v ra -> Rabs v <= 2 ^ 200) by (intros v H; apply MD, in_or_app; left; exact H).
  assert (Mb : forall v, In v rb -> Rabs v <= 2 ^ 200) by (intros v H; apply MD, in_or_app; right; apply in_or_app; left; exact H).
  assert (Mc : forall v, In v rc -> Rabs v <= 2 ^ 200) by (intros v H; apply MD, in_or_app; right; apply in_or_app; right; exact H).
  assert (CL : forall x y : list R, length x = n -> length y = n -> length (combine x y) = n) by (intros x y H1 H2; rewrite combine_length, H1, H2; apply Nat.min_id).
  assert (CN : forall x y : list R, length x = n -> length y = n -> combine x y <> []) by (intros x y H1 H2 E; specialize (CL x y H1 H2); rewrite E in CL; cbn in CL; lia).
  destruct (StatsErr_props.C54_float_errors a b (combine ra rb) n t La Lb (all_pairs a b ra rb A B ltac:(congruence)) (CN _ _ La' Lb') ltac:(rewrite CL; auto) (in_pairs _ _ _ Ma Mb)) as (e1 & m1 & r1 & ? & ? & E1 & I1 & J1 & _ & _ & _ & _ & U1 & V1 & _).
  destruct (StatsErr_props.C54_float_errors b c (combine rb rc) n t Lb Lc (all_pairs b c rb rc B C ltac:(congruence)) (CN _ _ Lb' Lc') ltac:(rewrite CL; auto) (in_pairs _ _ _ Mb Mc)) as (e2 & m2 & r2 & ? & ? & E2 & I2 & J2 & _ & _ & _ & _ & U2 & V2 & _).
  destruct (StatsErr_props.C54_float_errors a c (combine ra rc) n t La Lc (all_pairs a c ra rc A C ltac:(congruence)) (CN _ _ La' Lc') ltac:(rewrite CL; auto) (in_pairs _ _ _ Ma Mc)) as (e3 & m3 & r3 & ? & ? & E3 & I3 & J3 & _ & _ & _ & _ & U3 & V3 & _).
  exists e1, e2, e3. do 3 (split; [assumption|]). exists r1, r2, r3, m1, m2, m3. do 6 (split; [assumption|]).
  unfold within in *. rewrite CL in U1, V1, U2, V2, U3, V3 by assumption.
  destruct (Stats_proofs3.MAE_RMSE _ (CN _ _ La' Lb')) as ((P1 & P1') & _). destruct (Stats_proofs3.MAE_RMSE _ (CN _ _ Lb' Lc')) as ((P2 & P2') & _).
  assert (T : RMSE (combine ra rc) <= RMSE (combine ra rb) + RMSE (combine rb rc) /\ MAE (combine ra rc) <= MAE (combine ra rb) + MAE (combine rb rc)).
  { unfold RMSE, MAE. rewrite (MetricAffine_proofs.diffs_ab ra rb rc), (MetricAffine_proofs.diffs_bc ra rb rc), (MetricAffine_proofs.diffs_ac ra rb rc) by congruence.
    set (l := MetricAffine_proofs.triples ra rb rc). assert (NT : l <> []) by (unfold l; destruct ra, rb, rc; cbn in *; try lia; discriminate).
    assert (X : map (fun q => snd q - fst (fst q)) l = map (fun q => (snd (fst q) - fst (fst q)) + (snd q - snd (fst q))) l) by (apply map_ext; intros; ring).
    rewrite X. split; [apply MetricAffine_proofs.rms_triangle|apply MetricAffine_proofs.mean_abs_triangle]; exact NT. }
  destruct T as [T1 T2].
  assert (K : forall g, 0 <= g <= 10 -> 0 <= g * INR n / 2 ^ 53 <= / 1000). { intros g G. pose proof (pos_INR n) as N0. assert (G1 : 0 <= g * INR n) by (apply Rmult_le_pos; lra). assert (G2 : g * INR n <= 10 * 2 ^ 20) by (apply Rmult_le_compat; lra).
    split; [apply Rmult_le_pos; [lra|apply Rlt_le, Rinv_0_lt_compat, pow_lt; lra]|]. apply Rle_trans with (10 * 2 ^ 20 / 2 ^ 53); [apply Rmult_le_compat_r; [apply Rlt_le, Rinv_0_lt_compat, pow_lt; lra|lra]|simpl; lra]. }
  assert (Q : forall j, 0 <= / 2 ^ j) by (intros j; apply Rlt_le, Rinv_0_lt_compat, pow_lt; lra).
  pose proof (half_pow 1069) as H9. pose proof (half_pow 1068) as H8. pose proof (half_pow 529) as G9. pose proof (half_pow 528) as G8.
  pose proof (detour _ _ _ _ _ _ _ _ (K 10 ltac:(lra)) (Q 530%nat) (Rle_trans _ _ _ P1 P1') (Rle_trans _ _ _ P2 P2') T1 V1 V2 V3) as D1.
  pose proof (detour _ _ _ _ _ _ _ _ (K 5 ltac:(lra)) (Q 1070%nat) P1 P2 T2 U1 U2 U3) as D2.
  replace (2.4 * (10 * INR n / 2 ^ 53)) with (24 * INR n / 2 ^ 53) in D1 by (unfold Rdiv; lra). replace (2.4 * (5 * INR n / 2 ^ 53)) with (12 * INR n / 2 ^ 53) in D2 by (unfold Rdiv; lra).
  replace (4 * / 2 ^ 530) with (/ 2 ^ 528) in D1 by lra. replace (4 * / 2 ^ 1070) with (/ 2 ^ 1068) in D2 by lra. split; [exact D1|exact D2].
Qed.
