(** * Proofs for C143 *)
From Coq Require Import Reals Lra Lia ZArith Bool List.
From Flocq Require Import Core.
From Verif Require Import Base Num NumList NpOps RealSpec RealStat Stats_model Stats_spec Stats_proofs Stats_proofs2 Stats_proofs3 Stats_proofs4 MetricAffine_spec MetricAffine_proofs
  MeasErr_spec NearbyRobust_spec MetricStable_spec.
Import ListNotations.
Local Open Scope R_scope.
Local Notation length := List.length.

Lemma close_Forall2 q l l' : close_records q l l' -> Forall2 (near q) l l'.
Proof.
  intros [L H]. revert l' L H. induction l as [|x l IH]; intros [|y l'] L H; cbn in L; try discriminate; constructor.
  - exact (H 0%nat).
  - apply IH; [injection L; auto|]. intros k. exact (H (Datatypes.S k)).
Qed.

Definition pair_near (qr qp : R) (a b : R * R) : Prop := Rabs (fst b - fst a) <= qr /\ Rabs (snd b - snd a) <= qp.

Lemma pairs_close qr qp r r' p p' : Forall2 (near qr) r r' -> Forall2 (near qp) p p' ->
  exists ps ps', real_pairs r p ps /\ real_pairs r' p' ps' /\ Forall2 (pair_near qr qp) ps ps'.
Proof.
  intros HR. revert p p'. induction HR as [|x x' r r' Hx HR IH]; intros p p' HP.
  - exists [], []. repeat split; constructor.
  - destruct HP as [|y y' p p' Hy HP]; [exists [], []; repeat split; constructor|].
    destruct (IH _ _ HP) as (ps & ps' & P1 & P2 & F). unfold real_pairs, valid_pairs in *. cbn [combine filter fst snd].
    destruct Hx as [[-> ->]|(a & a' & -> & -> & Ha)].
    + exists ps, ps'. cbn. auto.
    + destruct Hy as [[-> ->]|(b & b' & -> & -> & Hb)].
      * exists ps, ps'. cbn. auto.
      * exists ((a, b) :: ps), ((a', b') :: ps'). split; [exact (f_equal (cons ((XFin a : XR), (XFin b : XR))) P1)|]. split; [exact (f_equal (cons ((XFin a' : XR), (XFin b' : XR))) P2)|].
        constructor; auto. split; cbn; auto.
Qed.

Lemma near_sym_pairs qr qp ps ps' : Forall2 (pair_near qr qp) ps ps' -> Forall2 (pair_near qr qp) ps' ps.
Proof. induction 1 as [|a b l l' [H1 H2] HF IH]; constructor; auto. split; rewrite Rabs_minus_sym; auto. Qed.
Lemma F2_len {A B} (P : A -> B -> Prop) l l' : Forall2 P l l' -> length l = length l'.
Proof. induction 1; cbn; congruence. Qed.

Lemma rms_le {A} (g : A -> R) l d : l <> [] -> (forall x, In x l -> Rabs (g x) <= d) -> sqrt (rmean (map (fun d => d * d) (map g l))) <= d.
Proof.
  intros Hne H. assert (D : 0 <= d). { destruct l as [|x l]; [congruence|]. pose proof (H x ltac:(left; auto)). pose proof (Rabs_pos (g x)). lra. }
  rewrite <- (sqrt_square d) by auto. apply sqrt_le_1_alt. apply (rmean_bounds _ 0 (d * d)).
  - repeat apply map_nil_iff; auto.
  - intros y Hy. rewrite map_map in Hy. apply in_map_iff in Hy. destruct Hy as (x & <- & Hx). specialize (H x Hx). apply Rabs_le_inv in H. split; nra.
Qed.
Lemma mean_abs_le {A} (g : A -> R) l d : l <> [] -> (forall x, In x l -> Rabs (g x) <= d) -> rmean (map Rabs (map g l)) <= d.
Proof.
  intros Hne H. apply (rmean_bounds _ 0 d).
  - repeat apply map_nil_iff; auto.
  - intros y Hy. rewrite map_map in Hy. apply in_map_iff in Hy. destruct Hy as (x & <- & Hx). specialize (H x Hx). pose proof (Rabs_pos (g x)). lra.
Qed.

(** one direction for both error measures *)
Lemma errors_up qr qp ps ps' : Forall2 (pair_near qr qp) ps ps' -> ps <> [] ->
  RMSE ps' <= RMSE ps + (qr + qp) /\ MAE ps' <= MAE ps + (qr + qp).
Proof.
  intros F Hne. set (l := combine ps ps').
  set (f := fun q : (R * R) * (R * R) => snd (fst q) - fst (fst q)).
  set (g := fun q : (R * R) * (R * R) => (snd (snd q) - snd (fst q)) - (fst (snd q) - fst (fst q))).
  assert (D1 : diffs ps = map f l). { unfold diffs, l, f. clear -F. induction F; cbn; congruence. }
  assert (D2 : diffs ps' = map (fun q => f q + g q) l). { unfold diffs, l, f, g. clear -F. induction F; cbn; auto. f_equal; auto. ring. }
  assert (G : forall q, In q l -> Rabs (g q) <= qr + qp).
  { unfold l, g. clear -F. induction F as [|a b l l' [H1 H2] F IH]; intros q Hq; [destruct Hq|]. destruct Hq as [<-|Hq]; [|auto]. cbn [fst snd].
    apply Rabs_le_inv in H1, H2. apply Rabs_le. lra. }
  assert (NL : l <> []). { unfold l. destruct F; [congruence|discriminate]. }
  unfold RMSE, MAE. rewrite D1, D2. split.
  - eapply Rle_trans; [apply rms_triangle; auto|]. pose proof (rms_le g l _ NL G). lra.
  - eapply Rle_trans; [apply mean_abs_triangle; auto|]. pose proof (mean_abs_le g l _ NL G). lra.
Qed.

Lemma sum_close {A} (f : A -> R) ps ps' d : Forall2 (fun a b => Rabs (f b - f a) <= d) ps ps' -> Rabs (rsum (map f ps') - rsum (map f ps)) <= INR (length ps) * d.
Proof.
  induction 1 as [|a b l l' H F IH]; [cbn; rewrite Rminus_diag_eq, Rabs_R0 by auto; lra|].
  cbn [map]. rewrite !rsum_cons'. cbn [length]. rewrite S_INR. apply Rabs_le_inv in H, IH. apply Rabs_le. lra.
Qed.

Lemma sum_mean l : l <> [] -> rsum l = INR (length l) * rmean l.
Proof. intros H. unfold rmean. pose proof (INR_length_pos l H). field. lra. Qed.

Lemma mean_close {A} (f : A -> R) ps ps' d : ps <> [] -> Forall2 (fun a b => Rabs (f b - f a) <= d) ps ps' -> Rabs (rmean (map f ps') - rmean (map f ps)) <= d.
Proof.
  intros Hne F. pose proof (sum_close f ps ps' d F) as H. pose proof (F2_len _ _ _ F) as L. pose proof (INR_length_pos ps Hne) as P.
  unfold rmean. rewrite !map_length, <- L. rewrite <- Rdiv_minus_distr. unfold Rdiv. rewrite Rabs_mult, (Rabs_right (/ _)) by (apply Rle_ge; left; apply Rinv_0_lt_compat; auto).
  apply (Rmult_le_reg_r (INR (length ps))); auto. rewrite Rmult_assoc, Rinv_l, Rmult_1_r by lra. lra.
Qed.

Lemma nan_near q x y : near q x y -> n_isnan (x : XR) = n_isnan (y : XR).
Proof. intros [[-> ->]|(a & b & -> & -> & _)]; reflexivity. Qed.
Lemma nan_list_near q l l' : Forall2 (near q) l l' -> map (fun x : XR => n_isnan x) l = map (fun x : XR => n_isnan x) l'.
Proof. induction 1 as [|x y l l' H F IH]; cbn [map]; auto. rewrite (nan_near _ _ _ H), IH. reflexivity. Qed.
Lemma count_nan_near q l l' : Forall2 (near q) l l' -> count (fun x : XR => n_isnan x) l = count (fun x : XR => n_isnan x) l'.
Proof. unfold count. induction 1 as [|x y l l' H F IH]; cbn [filter]; auto. rewrite (nan_near _ _ _ H). destruct (n_isnan y); cbn; auto. Qed.

Lemma stable_errors qr qp r r' p p' n t : length r = n -> length p = n -> close_records qr r r' -> close_records qp p p' -> valid_pairs r p <> [] ->
  exists e e', calc_rain_error_performance_metrics (mk_arr [n] r) (mk_arr [n] p) t = Ok e /\
  calc_rain_error_performance_metrics (mk_arr [n] r') (mk_arr [n] p') t = Ok e' /\
  reals_within (qr + qp) (root_mean_square_error e) (root_mean_square_error e') /\
  reals_within (qr + qp) (mean_absolute_error e) (mean_absolute_error e') /\
  reals_within qr (R_mean_reference e) (R_mean_reference e') /\ reals_within qp (R_mean_predicted e) (R_mean_predicted e') /\
  reals_within (INR (length (valid_pairs r p)) * qr) (R_sum_reference e) (R_sum_reference e') /\
  reals_within (INR (length (valid_pairs r p)) * qp) (R_sum_predicted e) (R_sum_predicted e') /\
  re_N_all_pairs e' = re_N_all_pairs e /\ re_N_nan_pairs e' = re_N_nan_pairs e /\
  re_N_nan_reference_only e' = re_N_nan_reference_only e /\ re_N_nan_predicted_only e' = re_N_nan_predicted_only e.
Proof.
  intros H1 H2 CR CP HV. pose proof (close_Forall2 _ _ _ CR) as FR. pose proof (close_Forall2 _ _ _ CP) as FP.
  destruct (pairs_close _ _ _ _ _ _ FR FP) as (ps & ps' & P & P' & F).
  assert (Hne : ps <> []) by (intros ->; apply HV; exact P).
  assert (Hne' : ps' <> []) by (intros ->; apply Hne; inversion F; auto).
  assert (L1 : length r' = n) by (destruct CR; lia). assert (L2 : length p' = n) by (destruct CP; lia).
  destruct (rain_values r p ps n t H1 H2 P Hne) as (e & E & A1 & A2 & A3 & A4 & A5 & A6 & _).
  destruct (rain_values r' p' ps' n t L1 L2 P' Hne') as (e' & E' & B1 & B2 & B3 & B4 & B5 & B6 & _).
  exists e, e'. do 2 (split; [assumption|]).
  destruct (errors_up _ _ _ _ F Hne) as [U1 U2]. destruct (errors_up _ _ _ _ (near_sym_pairs _ _ _ _ F) Hne') as [V1 V2].
  assert (F1 : Forall2 (fun a b : R * R => Rabs (fst b - fst a) <= qr) ps ps') by (clear -F; induction F as [|? ? ? ? []]; constructor; auto).
  assert (F2 : Forall2 (fun a b : R * R => Rabs (snd b - snd a) <= qp) ps ps') by (clear -F; induction F as [|? ? ? ? []]; constructor; auto).
  assert (LP : length (valid_pairs r p) = length ps) by (rewrite P; apply map_length). rewrite LP.
  split; [do 2 eexists; split; [exact A1|split; [exact B1|apply Rabs_le; lra]]|].
  split; [do 2 eexists; split; [exact A2|split; [exact B2|apply Rabs_le; lra]]|].
  split; [do 2 eexists; split; [exact A5|split; [exact B5|apply mean_close; auto]]|].
  split; [do 2 eexists; split; [exact A6|split; [exact B6|apply mean_close; auto]]|].
  split; [do 2 eexists; split; [exact A3|split; [exact B3|apply sum_close; auto]]|].
  split; [do 2 eexists; split; [exact A4|split; [exact B4|apply sum_close; auto]]|].
  rewrite rain_eval in E, E' by congruence. injection E as <-. injection E' as <-. cbn [re_N_all_pairs re_N_nan_pairs re_N_nan_reference_only re_N_nan_predicted_only].
  unfold nan_index. pose proof (nan_list_near _ _ _ FR) as N1. pose proof (nan_list_near _ _ _ FP) as N2.
  repeat split; auto.
  - change (map n_isnan r') with (map (fun x : XR => n_isnan x) r'). change (map n_isnan p') with (map (fun x : XR => n_isnan x) p').
    rewrite <- N1, <- N2. reflexivity.
  - symmetry. apply (count_nan_near _ _ _ FR).
  - symmetry. apply (count_nan_near _ _ _ FP).
Qed.

(** ** wet and dry classes *)
Lemma wet_same d t a b : Rabs (b - a) <= d -> borderline d t (0, a) = false -> Rlt_bool t b = Rlt_bool t a.
Proof.
  unfold borderline. cbn [snd]. intros H. destruct (Rle_bool_spec (Rabs (a - t)) d) as [|K]; [discriminate|]. intros _.
  apply Rabs_le_inv in H. destruct (Rlt_bool_spec t a) as [A|A].
  - apply Rlt_bool_true. rewrite Rabs_right in K by lra. lra.
  - apply Rlt_bool_false. rewrite Rabs_left1 in K by lra. lra.
Qed.

Lemma count_cons {A} (f : A -> bool) x l : count f (x :: l) = ((if f x then 1 else 0) + count f l)%nat.
Proof. unfold count. cbn [filter]. destruct (f x); reflexivity. Qed.

Lemma counts_move (P : R * R -> bool) (P0 : R -> bool) (s : bool) d t ps ps' :
  Forall2 (pair_near 0 d) ps ps' -> (forall q, P q = P0 (fst q) && (if s then Rlt_bool t (snd q) else negb (Rlt_bool t (snd q)))) ->
  (count P ps' <= count P ps + count (fun q => P0 (fst q) && borderline d t q) ps)%nat /\
  (count P ps <= count P ps' + count (fun q => P0 (fst q) && borderline d t q) ps)%nat.
Proof.
  intros F HP. induction F as [|a b l l' [H1 H2] F IH]; [cbn; lia|]. rewrite !count_cons.
  assert (E : fst b = fst a) by (apply Rabs_le_inv in H1; lra). rewrite !HP, E.
  destruct (P0 (fst a)); cbn [andb]; [|lia].
  destruct (borderline d t a) eqn:B.
  - destruct (if s then Rlt_bool t (snd b) else negb (Rlt_bool t (snd b))), (if s then Rlt_bool t (snd a) else negb (Rlt_bool t (snd a))); lia.
  - rewrite (wet_same d t (snd a) (snd b) H2 B). destruct (if s then Rlt_bool t (snd a) else negb (Rlt_bool t (snd a))); lia.
Qed.

Lemma count_ref (P0 : R -> bool) d ps ps' : Forall2 (pair_near 0 d) ps ps' -> count (fun q => P0 (fst q)) ps' = count (fun q => P0 (fst q)) ps.
Proof.
  induction 1 as [|a b l l' [H1 H2] F IH]; auto. rewrite !count_cons, IH. assert (E : fst b = fst a) by (apply Rabs_le_inv in H1; lra). rewrite E. reflexivity.
Qed.

Lemma ratio_fin a n : n <> 0%nat -> (ratio a n : XR) = XFin (INR a / INR n).
Proof.
  intros H. unfold ratio, n_ofnat. change (n_ofZ (Z.of_nat a) : XR) with (XFin (IZR (Z.of_nat a))). change (n_ofZ (Z.of_nat n) : XR) with (XFin (IZR (Z.of_nat n))).
  rewrite <- !INR_IZR_INZ. apply xdiv_fin'. apply not_0_INR; auto.
Qed.
Lemma ratio_none a n : n = 0%nat -> (a <= n)%nat -> (ratio a n : XR) = XNaN.
Proof. intros -> H. assert (a = 0%nat) by lia. subst a. apply xdiv_00. Qed.

Lemma count_le {A} (f g : A -> bool) l : (forall x, f x = true -> g x = true) -> (count f l <= count g l)%nat.
Proof. intros H. induction l as [|x l IH]; auto. rewrite !count_cons. specialize (H x). destruct (f x), (g x); try lia; discriminate H; auto. Qed.

Lemma rate_within k k' b d : d <> 0%nat -> (k' <= k + b)%nat -> (k <= k' + b)%nat ->
  reals_within (INR b / INR d) (ratio k d : XR) (ratio k' d : XR).
Proof.
  intros Hd H1 H2. rewrite !ratio_fin by auto. do 2 eexists. do 2 (split; [reflexivity|]).
  assert (P : 0 < INR d) by (apply lt_0_INR; lia). rewrite <- Rdiv_minus_distr. unfold Rdiv. rewrite Rabs_mult, (Rabs_right (/ _)) by (apply Rle_ge; left; apply Rinv_0_lt_compat; auto).
  apply Rmult_le_compat_r; [left; apply Rinv_0_lt_compat; auto|]. apply le_INR in H1, H2. rewrite plus_INR in H1, H2. apply Rabs_le. lra.
Qed.

Lemma filter_zero {A} (f : A -> bool) l : count f l = 0%nat <-> forall x, In x l -> f x = false.
Proof.
  induction l as [|x l IH]; [cbn; split; auto; intros ? ? []|]. rewrite count_cons. split.
  - intros H y [<-|Hy]; [destruct (f x); [lia|auto]|]. apply IH; auto. lia.
  - intros H. rewrite (H x) by (left; auto). cbn. apply IH. intros; apply H; right; auto.
Qed.

Lemma stable_rates d r p p' ps n t : length r = n -> length p = n -> close_records d p p' -> real_pairs r p ps ->
  exists e e', calc_rain_error_performance_metrics (mk_arr [n] r) (mk_arr [n] p) (XFin t : XR) = Ok e /\
  calc_rain_error_performance_metrics (mk_arr [n] r) (mk_arr [n] p') (XFin t : XR) = Ok e' /\
  (count (ref_dry t) ps = 0%nat -> re_false_wet_rate e = (XNaN : XR) /\ re_false_wet_rate e' = (XNaN : XR)) /\
  (count (ref_dry t) ps <> 0%nat ->
     reals_within (INR (count (fun q => ref_dry t q && borderline d t q) ps) / INR (count (ref_dry t) ps)) (re_false_wet_rate e) (re_false_wet_rate e')) /\
  (count (ref_wet t) ps = 0%nat -> re_missed_wet_rate e = (XNaN : XR) /\ re_missed_wet_rate e' = (XNaN : XR)) /\
  (count (ref_wet t) ps <> 0%nat ->
     reals_within (INR (count (fun q => ref_wet t q && borderline d t q) ps) / INR (count (ref_wet t) ps)) (re_missed_wet_rate e) (re_missed_wet_rate e')) /\
  ((forall q, In q ps -> d < Rabs (snd q - t)) ->
     re_false_wet_rate e' = re_false_wet_rate e /\ re_missed_wet_rate e' = re_missed_wet_rate e /\ missed_wet_precipitation_rate e' = missed_wet_precipitation_rate e).
Proof.
  intros H1 H2 CP P. pose proof (close_Forall2 _ _ _ CP) as FP.
  assert (PP : exists ps', real_pairs r p' ps' /\ Forall2 (pair_near 0 d) ps ps').
  { clear H1 H2 CP. unfold real_pairs, valid_pairs in *. revert r ps P. induction FP as [|y y' p p' Hy HP IH]; intros r ps P.
    - exists ps. destruct ps; [split; [exact P|constructor]|]. exfalso. destruct r; discriminate.
    - destruct r as [|x r]; [destruct ps; [exists []; split; [reflexivity|constructor]|discriminate]|].
      cbn [combine filter fst snd] in *. rewrite <- (nan_near _ _ _ Hy). destruct (negb (n_isnan x) && negb (n_isnan y)) eqn:B.
      + destruct ps as [|[u v] ps]; [discriminate|]. cbn [map fst snd] in P. injection P as -> -> P.
        destruct (IH _ _ P) as (ps' & Q & F). destruct Hy as [[Hy _]|(a & b & Ea & -> & Hb)]; [discriminate|]. injection Ea as <-.
        exists ((u, b) :: ps'). cbn [map fst snd]. rewrite Q. split; auto. constructor; auto. split; cbn; auto. rewrite Rminus_diag_eq, Rabs_R0 by auto. lra.
      + apply IH; auto. }
  destruct PP as (ps' & P' & F).
  assert (L2 : length p' = n) by (destruct CP; lia).
  rewrite !rain_eval by congruence. do 2 eexists. do 2 (split; [reflexivity|]).
  cbn [re_false_wet_rate re_missed_wet_rate missed_wet_precipitation_rate]. rewrite P, P'.
  assert (CM : forall (f : XR * XR -> bool) l, count f (map (fun q : R * R => ((XFin (fst q) : XR), (XFin (snd q) : XR))) l) = count (fun q => f ((XFin (fst q) : XR), (XFin (snd q) : XR))) l).
  { intros f l. induction l as [|q l IH]; auto. cbn [map]. rewrite !count_cons, IH. reflexivity. }
  rewrite !CM. cbn [fst snd].
  change (fun q : R * R => dry (XFin t : XR) (XFin (fst q) : XR)) with (ref_dry t).
  change (fun q : R * R => wet (XFin t : XR) (XFin (fst q) : XR)) with (ref_wet t).
  change (fun q : R * R => false_wet (XFin t : XR) ((XFin (fst q) : XR), (XFin (snd q) : XR))) with (fw t).
  change (fun q : R * R => missed_wet (XFin t : XR) ((XFin (fst q) : XR), (XFin (snd q) : XR))) with (mw t).
  assert (D : count (ref_dry t) ps' = count (ref_dry t) ps) by (exact (count_ref (fun x => negb (Rlt_bool t x)) d ps ps' F)).
  assert (W : count (ref_wet t) ps' = count (ref_wet t) ps) by (exact (count_ref (fun x => Rlt_bool t x) d ps ps' F)).
  rewrite D, W.
  destruct (counts_move (fw t) (fun x => negb (Rlt_bool t x)) true d t ps ps' F ltac:(reflexivity)) as [M1 M2].
  destruct (counts_move (mw t) (fun x => Rlt_bool t x) false d t ps ps' F ltac:(reflexivity)) as [M3 M4].
  assert (B1 : forall l, (count (fw t) l <= count (ref_dry t) l)%nat) by (intros; apply count_le; intros q; unfold fw, ref_dry; intros E; apply andb_true_iff in E; tauto).
  assert (B2 : forall l, (count (mw t) l <= count (ref_wet t) l)%nat) by (intros; apply count_le; intros q; unfold mw, ref_wet; intros E; apply andb_true_iff in E; tauto).
  split; [intros Z; split; apply ratio_none; auto; rewrite <- D; auto|].
  split; [intros Z; apply rate_within; auto|].
  split; [intros Z; split; apply ratio_none; auto; rewrite <- W; auto|].
  split; [intros Z; apply rate_within; auto|].
  intros HB. assert (NB : forall q, In q ps -> borderline d t q = false) by (intros q Hq; unfold borderline; apply Rle_bool_false; auto).
  assert (Z1 : count (fun q => negb (Rlt_bool t (fst q)) && borderline d t q) ps = 0%nat) by (apply filter_zero; intros q Hq; rewrite NB by auto; apply andb_false_r).
  assert (Z2 : count (fun q => Rlt_bool t (fst q) && borderline d t q) ps = 0%nat) by (apply filter_zero; intros q Hq; rewrite NB by auto; apply andb_false_r).
  rewrite Z1 in M1, M2. rewrite Z2 in M3, M4. replace (count (fw t) ps') with (count (fw t) ps) by lia. replace (count (mw t) ps') with (count (mw t) ps) by lia.
  split; [reflexivity|]. split; [reflexivity|]. f_equal. rewrite !filter_map_comm, !map_map. cbn [fst snd].
  change (fun x : R * R => missed_wet (XFin t : XR) ((XFin (fst x) : XR), (XFin (snd x) : XR))) with (mw t).
  clear -F NB. induction F as [|a b l l' [H1 H2] F IH]; auto. cbn [filter].
  assert (E : fst b = fst a) by (apply Rabs_le_inv in H1; lra).
  assert (EM : mw t b = mw t a). { unfold mw. rewrite E, (wet_same d t (snd a) (snd b) H2); auto. apply (NB a). left; auto. }
  rewrite EM. destruct (mw t a); cbn [map]; rewrite IH by (intros; apply NB; right; auto); rewrite ?E; reflexivity.
Qed.

(** ** the bounds are reached; the correlation has none *)
Lemma shifted_metrics q r n t : 0 <= q -> length r = n -> n <> 0%nat ->
  exists e e', calc_rain_error_performance_metrics (mk_arr [n] (ofR r)) (mk_arr [n] (ofR r)) t = Ok e /\
  calc_rain_error_performance_metrics (mk_arr [n] (ofR r)) (mk_arr [n] (ofR (map (fun x => x + q) r))) t = Ok e' /\
  close_records q (ofR r) (ofR (map (fun x => x + q) r)) /\
  root_mean_square_error e = (XFin 0 : XR) /\ root_mean_square_error e' = (XFin q : XR) /\
  mean_absolute_error e = (XFin 0 : XR) /\ mean_absolute_error e' = (XFin q : XR).
Proof.
  intros Hq L Hn. assert (Nr : r <> []) by (intros ->; cbn in L; lia). set (r' := map (fun x => x + q) r).
  assert (L' : length r' = n) by (unfold r'; rewrite map_length; auto).
  assert (OL : forall l : list R, length (ofR l) = length l) by (intros; unfold ofR; apply map_length).
  destruct (rain_values (ofR r) (ofR r) _ n t ltac:(rewrite OL; auto) ltac:(rewrite OL; auto) (pairs_ofR r r eq_refl) (combine_ne r r eq_refl Nr)) as (e & E & A1 & A2 & _).
  destruct (rain_values (ofR r) (ofR r') _ n t ltac:(rewrite OL; auto) ltac:(rewrite OL; auto) (pairs_ofR r r' ltac:(congruence)) (combine_ne r r' ltac:(congruence) Nr)) as (e' & E' & B1 & B2 & _).
  exists e, e'. do 2 (split; [assumption|]). split.
  - split; [rewrite !OL; congruence|]. intros k. unfold r', ofR. rewrite !map_map. destruct (le_lt_dec (length r) k) as [K|K].
    + left. unfold get. rewrite !nth_overflow by (rewrite map_length; auto). split; reflexivity.
    + right. exists (nth k r 0), (nth k r 0 + q). unfold get.
      rewrite !(nth_indep _ (n_nan : XR) (XFin 0)) by (rewrite map_length; auto).
      split; [exact (map_nth (fun x => (XFin x : XR)) r 0 k)|]. split.
      * rewrite (nth_indep _ (XFin 0 : XR) (XFin (0 + q) : XR)) by (rewrite map_length; auto). exact (map_nth (fun x => (XFin (x + q) : XR)) r 0 k).
      * replace (nth k r 0 + q - nth k r 0) with q by ring. rewrite Rabs_right by lra. lra.
  - assert (D1 : forall v, In v (diffs (combine r r)) -> v = 0).
    { unfold diffs. clear. induction r as [|x r IH]; intros v Hv; [destruct Hv|]. destruct Hv as [<-|Hv]; [cbn; ring|auto]. }
    assert (D2 : forall v, In v (diffs (combine r r')) -> v = q).
    { unfold diffs, r'. clear. induction r as [|x r IH]; intros v Hv; [destruct Hv|]. destruct Hv as [<-|Hv]; [cbn; ring|auto]. }
    assert (N1 : diffs (combine r r) <> []) by (apply map_nil_iff, combine_ne; auto).
    assert (N2 : diffs (combine r r') <> []) by (apply map_nil_iff, combine_ne; auto; congruence).
    assert (C : forall (l : list R) (f : R -> R) c y, l <> [] -> (forall v, In v l -> v = c) -> f c = y -> rmean (map f l) = y).
    { intros l f c y Hl Hc Hy. assert (B : y <= rmean (map f l) <= y); [|lra]. apply rmean_bounds; [apply map_nil_iff; auto|].
      intros z Hz. apply in_map_iff in Hz. destruct Hz as (v & <- & Hv). rewrite (Hc v Hv), Hy. lra. }
    rewrite A1, A2, B1, B2. unfold RMSE, MAE.
    rewrite (C _ (fun d => d * d) 0 0 N1 D1) by ring. rewrite (C _ Rabs 0 0 N1 D1) by apply Rabs_R0.
    rewrite (C _ (fun d => d * d) q (q * q) N2 D2) by ring. rewrite (C _ Rabs q q N2 D2) by (apply Rabs_right; lra).
    rewrite sqrt_0, sqrt_square by auto. repeat split; reflexivity.
Qed.

Lemma correlation_unstable q t : 0 < q -> exists r p p' e e', close_records q p p' /\
  calc_rain_error_performance_metrics (mk_arr [2%nat] r) (mk_arr [2%nat] p) t = Ok e /\
  calc_rain_error_performance_metrics (mk_arr [2%nat] r) (mk_arr [2%nat] p') t = Ok e' /\
  pearson_correlation e = (XFin 1 : XR) /\ pearson_correlation e' = (XFin (-1) : XR).
Proof.
  intros Hq. pose (r := [0; 1]). pose (p := [0; q]). pose (p' := [q; 0]).
  destruct (correlation_of_one (ofR r) (ofR p) _ 2%nat t eq_refl eq_refl (pairs_ofR r p eq_refl) ltac:(discriminate)) as (e & E & A & _).
  destruct (correlation_of_one (ofR r) (ofR p') _ 2%nat t eq_refl eq_refl (pairs_ofR r p' eq_refl) ltac:(discriminate)) as (e' & E' & _ & A').
  exists (ofR r), (ofR p), (ofR p'), e, e'. split; [|split; [auto|split; [auto|]]].
  - split; [reflexivity|]. intros [|[|k]]; [right; exists 0, q|right; exists q, 0|left]; cbn.
    + repeat split. rewrite Rminus_0_r, Rabs_right by lra. lra.
    + repeat split. rewrite Rabs_minus_sym, Rminus_0_r, Rabs_right by lra. lra.
    + destruct k; auto.
  - assert (V : varies [0; 1]). { exists 0, 1. repeat split; cbn; auto. }
    split.
    + apply A. split; [exact V|]. exists q, 0. split; auto. intros z [<-|[<-|[]]]; cbn; ring.
    + apply A'. split; [exact V|]. exists (- q), q. split; [lra|]. intros z [<-|[<-|[]]]; cbn; ring.
Qed.
