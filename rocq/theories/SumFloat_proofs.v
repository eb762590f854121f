(** * Sums of whole numbers in binary64 *)
From Coq Require Import List ZArith Bool String Lia Reals Lra Psatz.
From Flocq Require Import Core IEEE754.BinarySingleNaN.
From Verif Require Import Base Num NumF64 Ulp64 NumList RealStat Temporal_model Temporal_spec Temporal_proofs SumFloat_spec.
Import ListNotations.
Local Open Scope R_scope.
Local Notation length := List.length.

Lemma f_val_B2R (v : F64) r : f_val v = XFin r -> B2R v = r.
Proof. destruct v as [s|[]| |s m e h]; cbn; intros H; try discriminate; injection H as H; auto. Qed.
Lemma f_val_of_B2R (v : F64) e : multiple e v -> f_val v = XFin (B2R v) /\ exists z, B2R v = IZR z * bpow radix2 e.
Proof. intros (z & H). pose proof (f_val_B2R v _ H) as E. rewrite H, E. eauto. Qed.
Lemma rnd_grid z e : (-1074 <= e <= 900)%Z -> (Z.abs z <= 2 ^ 53)%Z -> f_rnd (XFin (IZR z * bpow radix2 e)) = XFin (IZR z * bpow radix2 e).
Proof.
  intros He Hz. unfold f_rnd. rewrite rnd64_generic by (apply grid_format; auto). rewrite Rlt_bool_true; auto.
  rewrite Rabs_mult, (Rabs_pos_eq (bpow radix2 e)) by apply bpow_ge_0. rewrite <- abs_IZR.
  apply Rle_lt_trans with (IZR (2 ^ 53) * bpow radix2 900).
  - apply Rmult_le_compat; [apply IZR_le; lia|apply bpow_ge_0|apply IZR_le; auto|apply bpow_le; lia].
  - change (IZR (2 ^ 53)) with (bpow radix2 53). rewrite <- bpow_plus. apply bpow_lt. lia.
Qed.
Lemma abs_units z e : Rabs (IZR z * bpow radix2 e) <= IZR (2 ^ 53) * bpow radix2 e -> (Z.abs z <= 2 ^ 53)%Z.
Proof.
  intros H. rewrite Rabs_mult, (Rabs_pos_eq (bpow radix2 e)) in H by apply bpow_ge_0. rewrite <- abs_IZR in H.
  apply le_IZR. apply (Rmult_le_reg_r (bpow radix2 e)); auto. apply bpow_gt_0.
Qed.
Lemma fold_sum e l : (-1074 <= e <= 900)%Z -> (forall v, In v l -> multiple e v) -> forall acc : F64, multiple e acc ->
  Rabs (B2R acc) + rsum (map (fun v => Rabs (B2R v)) l) <= IZR (2 ^ 53) * bpow radix2 e ->
  f_val (fold_left n_add l acc) = XFin (B2R acc + rsum (map B2R l)).
Proof.
  intros He. induction l as [|v l IH]; intros Hl acc Ha HB.
  - cbn [fold_left map]. destruct (f_val_of_B2R acc e Ha) as [E _]. rewrite E. f_equal. cbn. lra.
  - cbn [fold_left map] in *. rewrite rsum_cons in *.
    destruct (f_val_of_B2R acc e Ha) as [Ea [za Za]]. destruct (f_val_of_B2R v e (Hl v (or_introl eq_refl))) as [Ev [zv Zv]].
    assert (P : 0 <= rsum (map (fun v0 : F64 => Rabs (B2R v0)) l)).
    { clear. induction l as [|v l IH]; [cbn; lra|]. cbn [map]. rewrite rsum_cons. pose proof (Rabs_pos (B2R v)). lra. }
    pose proof (Rabs_triang (B2R acc) (B2R v)) as T.
    assert (S1 : B2R acc + B2R v = IZR (za + zv) * bpow radix2 e) by (rewrite Za, Zv, plus_IZR; ring).
    assert (EV : f_val (n_add acc v) = XFin (IZR (za + zv) * bpow radix2 e)).
    { change (f_val (n_add acc v)) with (val F64sem (n_add acc v)). rewrite (val_add _ F64sem). change (val F64sem acc) with (f_val acc). change (val F64sem v) with (f_val v).
      rewrite Ea, Ev. cbn [xadd]. rewrite S1. apply rnd_grid; auto. apply (abs_units _ e). rewrite <- S1. apply Rle_trans with (1 := T). apply Rle_trans with (2 := HB). clear - P. set (x := rsum _) in *. clearbody x. lra. }
    rewrite IH.
    + rewrite (f_val_B2R _ _ EV), <- S1. f_equal. ring.
    + intros x Hx. apply Hl. right; auto.
    + exists (za + zv)%Z. exact EV.
    + rewrite (f_val_B2R _ _ EV), <- S1. apply Rle_trans with (2 := HB). lra.
Qed.
Lemma n_sum_exact : exact_sum (@n_sum F64).
Proof.
  intros e l (He & Hl & HB). unfold n_sum.
  assert (E0 : f_val (zero : F64) = XFin 0) by exact (val_0 F64sem).
  rewrite (fold_sum e l He Hl zero).
  - rewrite (f_val_B2R _ _ E0). f_equal. ring.
  - exists 0%Z. rewrite E0. f_equal. ring.
  - rewrite (f_val_B2R _ _ E0), Rabs_R0. lra.
Qed.

(** sums over the groups of a partition *)
Lemma groups_of_reals {A} (f : A -> R) (df : list (Z * A)) ls (member : Z -> Z * A -> bool) : NoDup ls ->
  (forall n m r, In r df -> member n r = true -> member m r = true -> n = m) ->
  rsum (map (fun n => rsum (map (fun r => f (snd r)) (filter (member n) df))) ls) =
  rsum (map (fun r => f (snd r)) (filter (fun r => existsb (fun n => member n r) ls) df)).
Proof.
  intros ND U. induction df as [|r df IH].
  - clear. cbn [filter map]. induction ls; cbn [map]; auto. rewrite rsum_cons, IHls. cbn. lra.
  - assert (E : rsum (map (fun n => rsum (map (fun r => f (snd r)) (filter (member n) (r :: df)))) ls) =
      ((if existsb (fun n => member n r) ls then f (snd r) else 0) + rsum (map (fun n => rsum (map (fun r => f (snd r)) (filter (member n) df))) ls))).
    { assert (U' : forall n m, member n r = true -> member m r = true -> n = m) by (intros; eapply U; eauto; left; auto).
      clear IH U. induction ND as [|n ls Hn ND IH]; [cbn; lra|].
      cbn [map existsb]. rewrite !rsum_cons, IH. cbn [filter]. destruct (member n r) eqn:Em; cbn [orb map]; [|lra]. rewrite rsum_cons.
      assert (existsb (fun n0 => member n0 r) ls = false) as ->.
      { apply not_true_iff_false. intros H. apply existsb_exists in H. destruct H as (m & Hm & Hm'). specialize (U' _ _ Em Hm'). congruence. }
      lra. }
    rewrite E, IH; [|intros n m r' Hr'; apply U; right; auto].
    cbn [filter]. destruct (existsb (fun n => member n r) ls); cbn [map]; rewrite ?rsum_cons; lra.
Qed.
Lemma rsum_filter_le {A} (f : A -> R) p (l : list A) : (forall x, 0 <= f x) -> rsum (map f (filter p l)) <= rsum (map f l).
Proof.
  intros H. induction l as [|x l IH]; [cbn; lra|]. cbn [filter map]. destruct (p x); cbn [map]; rewrite ?rsum_cons; specialize (H x); lra.
Qed.
Lemma rsum_abs_le {A} (f : A -> R) (l : list A) : Rabs (rsum (map f l)) <= rsum (map (fun x => Rabs (f x)) l).
Proof.
  induction l as [|x l IH]; [cbn; rewrite Rabs_R0; lra|]. cbn [map]. rewrite !rsum_cons. pose proof (Rabs_triang (f x) (rsum (map f l))). lra.
Qed.
Lemma rsum_multiple e (l : list F64) : (forall v, In v l -> multiple e v) -> exists z, rsum (map B2R l) = IZR z * bpow radix2 e.
Proof.
  induction l as [|v l IH]; intros H; [exists 0%Z; cbn; ring|]. destruct IH as [z E]; [intros x Hx; apply H; right; auto|].
  destruct (f_val_of_B2R v e (H v (or_introl eq_refl))) as [_ [y Y]]. exists (y + z)%Z. cbn [map]. rewrite rsum_cons, E, Y, plus_IZR. ring.
Qed.
Lemma countable_filter e p (l : list F64) : countable e l -> countable e (filter p l).
Proof.
  intros (He & Hl & HB). split; auto. split; [intros v Hv; apply filter_In in Hv; apply Hl; tauto|].
  apply Rle_trans with (2 := HB). exact (rsum_filter_le (fun v : F64 => Rabs (B2R v)) p l (fun x => Rabs_pos _)).
Qed.
Lemma countable_rows e p (df : list (Z * F64)) : countable e (map snd df) -> countable e (map snd (filter p df)).
Proof.
  intros (He & Hl & HB). split; auto. split.
  - intros v Hv. apply Hl. apply in_map_iff in Hv. destruct Hv as (r & <- & Hr). apply filter_In in Hr. apply in_map. tauto.
  - apply Rle_trans with (2 := HB). rewrite !map_map. exact (rsum_filter_le (fun r : Z * F64 => Rabs (B2R (snd r))) p df (fun x => Rabs_pos _)).
Qed.
Lemma sums_conserved (method : list F64 -> F64) (df : list (Z * F64)) e ls (member : Z -> Z * F64 -> bool) : exact_sum method -> countable e (map snd df) -> NoDup ls ->
  (forall n m r, In r df -> member n r = true -> member m r = true -> n = m) ->
  let total := rsum (map B2R (map snd (filter (fun r => existsb (fun n => member n r) ls) df))) in
  f_val (method (map (fun n => method (map snd (filter (member n) df))) ls)) = XFin total /\
  f_val (method (map snd (filter (fun r => existsb (fun n => member n r) ls) df))) = XFin total.
Proof.
  intros HM C ND U. cbv zeta.
  assert (G : forall n, f_val (method (map snd (filter (member n) df))) = XFin (rsum (map B2R (map snd (filter (member n) df))))) by (intros n; apply (HM e); apply countable_rows; auto).
  assert (GB : forall n, B2R (method (map snd (filter (member n) df))) = rsum (map (fun r => B2R (snd r)) (filter (member n) df))) by (intros n; rewrite (f_val_B2R _ _ (G n)), map_map; reflexivity).
  split.
  - rewrite (HM e).
    + f_equal. rewrite !map_map. rewrite <- (groups_of_reals (fun v : F64 => B2R v) df ls member ND U). f_equal. apply map_ext. intros n. apply GB.
    + destruct C as (He & Hl & HB). split; auto. split.
      * intros v Hv. apply in_map_iff in Hv. destruct Hv as (n & <- & Hn). destruct (rsum_multiple e (map snd (filter (member n) df))) as [z Ez].
        -- intros v Hv. apply Hl. apply in_map_iff in Hv. destruct Hv as (r & <- & Hr). apply filter_In in Hr. apply in_map. tauto.
        -- exists z. rewrite G, Ez. reflexivity.
      * apply Rle_trans with (2 := HB). rewrite !map_map.
        apply Rle_trans with (rsum (map (fun n => rsum (map (fun r => Rabs (B2R (snd r))) (filter (member n) df))) ls)).
        -- clear - GB. induction ls as [|n ls IH]; [cbn; lra|]. cbn [map]. rewrite !rsum_cons. apply Rplus_le_compat; [|exact IH]. rewrite GB. exact (rsum_abs_le (fun r : Z * F64 => B2R (snd r)) (filter (member n) df)).
        -- apply Rle_trans with (1 := Req_le _ _ (groups_of_reals (fun v : F64 => Rabs (B2R v)) df ls member ND U)). apply (rsum_filter_le (fun r : Z * F64 => Rabs (B2R (snd r)))). intros; apply Rabs_pos.
  - apply (HM e). apply countable_rows. auto.
Qed.
Lemma aggregate_conserves_float (method : list F64 -> F64) (df : list (Z * F64)) (new : list Z) label o a b e :
  exact_sum method -> countable e (map snd df) ->
  df <> [] -> increasing new -> common_period (map fst df) new a b -> label = "right"%string \/ label = "left"%string ->
  exists g (labelled : Z * F64 -> bool), aggregate_df_onto_DatetimeIndex true df (Aware new) method label o = Ok g /\
  (forall t v, In (t, v) df -> (labelled (t, v) = true <-> exists n, label_of label new a b t n)) /\
  n_eqb (method (map snd g)) (method (map snd (filter labelled df))) = true.
Proof.
  intros HM C Hd HS HC HL.
  destruct (aggregate_aware df new method label o a b Hd HS HC HL) as (ls & g & member & E & H1 & H2 & H3 & H4).
  exists g, (fun r => existsb (fun n => member n r) ls). split; auto. split.
  - intros t v Hin. rewrite existsb_exists. split.
    + intros (n & _ & Hm). exists n. apply H3 in Hm; auto.
    + intros (n & Hl). exists n. split; [apply H2; eauto|apply H3; auto].
  - rewrite H4, map_map. cbn [snd].
    destruct (sums_conserved method df e ls member HM C (increasing_NoDup _ H1)) as [S1 S2].
    { intros n m [t v] Hin Hn Hm. apply H3 in Hn, Hm; auto. eapply label_unique; eauto. }
    rewrite (val_eqb _ F64sem). change (val F64sem) with f_val. rewrite S1, S2. cbn. apply Req_bool_true. reflexivity.
Qed.
