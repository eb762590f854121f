From Coq Require Import List ZArith Bool Lia Arith Reals Lra String Permutation.
From Flocq Require Import Core IEEE754.BinarySingleNaN.
From Verif Require Import Base Num NumF64 NumList RealStat Ulp64 Temporal_model Temporal_spec Temporal_proofs HaversineFloat_spec HaversineAcc_proofs FloatErr_spec FloatErr_proofs
  SumFloat_spec SumFloat_proofs Reagg_spec Reagg_proofs ReaggFloat_spec.
Import ListNotations.
Local Open Scope R_scope.
Local Notation length := List.length.
Local Arguments bpow : simpl never.

(** ** a sum of sums is a sum *)
Definition part_of (v : F64) (l : list F64) : Prop := exists k, (k <= length l)%nat /\ summed k l v.
Lemma Forall2_perm_l {A B} (P : A -> B -> Prop) l l' : Permutation l l' -> forall m', Forall2 P l' m' -> exists m, Forall2 P l m /\ Permutation m m'.
Proof.
  induction 1 as [|x l l' H IH|x y l|l l' l'' H1 IH1 H2 IH2]; intros m' F.
  - inversion F; subst. exists []. split; constructor.
  - inversion F as [|? ? ? ? F1 F2]; subst. destruct (IH _ F2) as (m & M1 & M2). exists (y :: m). split; constructor; auto.
  - inversion F as [|? ? ? ? F1 F2]; subst. inversion F2 as [|? ? ? ? F3 F4]; subst. eexists (_ :: _ :: _). split; [repeat constructor; eauto|apply perm_swap].
  - destruct (IH2 _ F) as (m & M1 & M2). destruct (IH1 _ M1) as (m2 & M3 & M4). exists m2. split; auto. eapply Permutation_trans; eauto.
Qed.
Lemma concat_perm {A} (l l' : list (list A)) : Permutation l l' -> Permutation (List.concat l) (List.concat l').
Proof.
  induction 1; cbn [List.concat]; auto.
  - apply Permutation_app; auto.
  - rewrite !app_assoc. apply Permutation_app_tail, Permutation_app_comm.
  - eapply Permutation_trans; eauto.
Qed.
Lemma summed_parts k L x : summed k L x -> forall parts, Forall2 part_of L parts ->
  exists K, (K <= k + length (List.concat parts))%nat /\ summed K (List.concat parts) x.
Proof.
  induction 1 as [|x|j k l l' x y H1 IH1 H2 IH2|k l l' x HP H IH]; intros parts F.
  - inversion F; subst. exists 0%nat. split; [cbn; lia|constructor].
  - inversion F as [|? l ? ? (k & K1 & K2) F2]; subst. inversion F2; subst. cbn [List.concat]. rewrite app_nil_r. exists k. split; [lia|auto].
  - apply Forall2_app_inv_l in F. destruct F as (p1 & p2 & F1 & F2 & ->). destruct (IH1 _ F1) as (K1 & A1 & B1). destruct (IH2 _ F2) as (K2 & A2 & B2).
    rewrite concat_app, app_length. exists (K1 + K2 + 1)%nat. split; [lia|constructor; auto].
  - destruct (Forall2_perm_l part_of _ _ HP parts F) as (m & M1 & M2). destruct (IH _ M1) as (K & A1 & B1). exists K.
    pose proof (concat_perm _ _ M2) as CP. split; [rewrite <- (Permutation_length CP); auto|eapply summed_perm; eauto].
Qed.

Lemma sums_of_sums f parts : sums f -> ~ In [] parts -> exists K, (K <= 2 * length (List.concat parts))%nat /\ summed K (List.concat parts) (f (map f parts)).
Proof.
  intros S N. destruct (S (map f parts)) as (k & K1 & K2). destruct (summed_parts _ _ _ K2 parts) as (K & A & B).
  - clear - S. induction parts; constructor; auto. apply S.
  - exists K. split; auto. rewrite map_length in K1. assert (length parts <= length (List.concat parts))%nat; [|lia].
    clear - N. induction parts as [|l p IH]; [auto|]. cbn [List.concat]. rewrite app_length. cbn [List.length]. destruct l; [destruct N; left; auto|]. cbn [List.length].
    assert (length p <= length (List.concat p))%nat by (apply IH; intros H; apply N; right; auto). lia.
Qed.

Lemma summed_nearly k l v r N : summed k l v -> are_nums l r -> (forall x, In x r -> 0 <= x) -> (k <= 2 * N)%nat -> INR N <= 2 ^ 18 -> rsum r <= 2 ^ 900 -> nearly N (rsum r) v.
Proof.
  intros H A P K HN R. assert (KR : INR k <= 2 * INR N) by (apply le_INR in K; rewrite mult_INR in K; simpl in K; lra).
  assert (R0 : 0 <= rsum r). { clear - P. induction r as [|x r IH]; [cbn; lra|]. rewrite rsum_cons. assert (0 <= x) by (apply P; left; auto). assert (0 <= rsum r) by (apply IH; intros; apply P; right; auto). lra. }
  destruct (summed_close k l v r H A P) as (s & S1 & _ & S2); auto.
  { apply Rle_trans with (1 := KR). simpl in *. lra. }
  exists s. split; [exact S1|]. pose proof (pos_INR k) as K0. pose proof n0_pos as NP. pose proof u64_pos as UP.
  assert (E1 : / 2 ^ 51 = 4 * u64). { rewrite u64_val. simpl. lra. }
  assert (E2 : bpow radix2 (-1072) = 4 * n0). { unfold n0. replace (-1072)%Z with (2 + -1074)%Z by lia. rewrite bpow_plus. f_equal. }
  unfold Rdiv. rewrite E1, E2. set (x := rsum r) in *.
  assert (Q : 2 * INR k * (u64 * x + n0) <= INR N * (x * (4 * u64) + 4 * n0)).
  { replace (INR N * (x * (4 * u64) + 4 * n0)) with (2 * (2 * INR N) * (u64 * x + n0)) by ring. apply Rmult_le_compat_r; [|lra].
    assert (0 <= u64 * x) by (apply Rmult_le_pos; lra). lra. }
  apply Rabs_le. lra.
Qed.

(** ** a bin *)
Lemma are_nums_perm l l' r : Permutation l l' -> are_nums l r -> exists r', are_nums l' r' /\ Permutation r r'.
Proof.
  intros P A. assert (F : Forall2 is_num l r) by exact A. destruct (Forall2_perm_l is_num _ _ (Permutation_sym P) r F) as (m & M1 & M2).
  exists m. split; [exact M1|apply Permutation_sym; exact M2].
Qed.
Lemma rsum_perm (r r' : list R) : Permutation r r' -> rsum r = rsum r'.
Proof. intros P. apply rsum_poolable. exact P. Qed.

Lemma are_nums_B2R l : (forall v, In v l -> exists r, is_num v r) -> are_nums l (map B2R l).
Proof.
  intros H. induction l as [|v l IH]; constructor; [|apply IH; intros; apply H; right; auto].
  destruct (H v (or_introl eq_refl)) as (r & E). unfold is_num in *. rewrite (f_val_B2R _ _ E). exact E.
Qed.

Lemma asum_nn (l : list F64) : 0 <= rsum (map (fun v : F64 => Rabs (B2R v)) l).
Proof. induction l as [|v l IH]; [cbn; lra|]. cbn [map]. rewrite rsum_cons. pose proof (Rabs_pos (B2R v)). lra. Qed.
Lemma asum_mid (p l q : list F64) : rsum (map (fun v : F64 => Rabs (B2R v)) l) <= rsum (map (fun v : F64 => Rabs (B2R v)) (p ++ l ++ q)).
Proof. rewrite !map_app, !rsum_app. pose proof (asum_nn p). pose proof (asum_nn q). lra. Qed.

Section Float.
Variables (f : list F64 -> F64) (df : list (Z * F64)) (fine coarse : list Z) (label : string) (o a1 b1 a b : Z).
Hypotheses (Hd : df <> []) (HSf : increasing fine) (HSc : increasing coarse) (Hsub : forall c, In c coarse -> In c fine).
Hypotheses (HL : label = "right"%string \/ label = "left"%string) (HR : reaches label (map fst df) coarse).
Hypotheses (HC1 : common_period (map fst df) fine a1 b1) (HC : common_period (map fst df) coarse a b).
Hypotheses (HG : no_gap label (map fst df) fine a1 b1) (HN : exists n, In n fine /\ (a1 <= n <= b1)%Z).
Let rows := two_steps_rows f df fine coarse label o Hd HSf HSc Hsub HL HR a1 b1 a b HC1 HC HG HN.

Lemma two_steps_nearly : sums f -> (forall t v, In (t, v) df -> exists r, is_num v r /\ 0 <= r) ->
  INR (length df) <= 2 ^ 18 -> rsum (map B2R (map snd df)) <= 2 ^ 900 ->
  exists g1 g2 g,
  aggregate_df_onto_DatetimeIndex true df (Aware fine) f label o = Ok g1 /\
  aggregate_df_onto_DatetimeIndex true g1 (Aware coarse) f label o = Ok g2 /\
  aggregate_df_onto_DatetimeIndex true df (Aware coarse) f label o = Ok g /\
  Forall2 (fun two one => fst two = fst one /\ exists p : Z * F64 -> bool,
    (forall t v, In (t, v) df -> p (t, v) = true <-> label_of label coarse a b t (fst one)) /\
    let bin := map snd (filter p df) in nearly (length bin) (rsum (map B2R bin)) (snd two) /\ nearly (length bin) (rsum (map B2R bin)) (snd one)) g2 g.
Proof.
  intros SF HV HNN HT. destruct rows as (g1 & g2 & g & E1 & E2 & E & R). exists g1, g2, g. split; [exact E1|]. split; [exact E2|]. split; [exact E|].
  clear E1 E2 E. induction R as [|two one l l' (Q1 & p & parts & P1 & P2 & P4 & P3 & Q2 & Q3) R IH]; constructor; [|exact IH].
  split; [exact Q1|]. exists p. split; [exact P4|]. cbv zeta. set (bin := map snd (filter p df)) in *.
  assert (BN : forall v, In v bin -> exists r, is_num v r /\ 0 <= r).
  { intros v Hv. unfold bin in Hv. apply in_map_iff in Hv. destruct Hv as ((t, v') & <- & Hv). apply filter_In in Hv. apply (HV t v'). tauto. }
  assert (AN : are_nums bin (map B2R bin)) by (apply are_nums_B2R; intros v Hv; destruct (BN v Hv) as (r & ? & _); eauto).
  assert (PB : forall x, In x (map B2R bin) -> 0 <= x).
  { intros x Hx. apply in_map_iff in Hx. destruct Hx as (v & <- & Hv). destruct (BN v Hv) as (r & Hr & H0). rewrite (f_val_B2R _ _ Hr). exact H0. }
  assert (LB : INR (length bin) <= 2 ^ 18).
  { apply Rle_trans with (2 := HNN). apply le_INR. unfold bin. rewrite map_length. clear. induction df as [|x d IH]; [auto|]. cbn [filter]. destruct (p x); cbn [List.length]; lia. }
  assert (RB : rsum (map B2R bin) <= 2 ^ 900).
  { apply Rle_trans with (2 := HT). unfold bin. rewrite !map_map. clear - HV. induction df as [|[t v] d IH]; [cbn; lra|].
    assert (I : rsum (map (fun x : Z * F64 => B2R (snd x)) (filter p d)) <= rsum (map (fun x : Z * F64 => B2R (snd x)) d)) by (apply IH; intros; eapply HV; right; eauto).
    destruct (HV t v (or_introl eq_refl)) as (r & Hr & H0). cbn [filter map]. rewrite rsum_cons. cbn [snd]. rewrite (f_val_B2R _ _ Hr).
    destruct (p (t, v)); [cbn [map]; rewrite rsum_cons; cbn [snd]; rewrite (f_val_B2R _ _ Hr); lra|lra]. }
  split.
  - rewrite Q2. destruct (sums_of_sums f parts SF P2) as (K & K1 & K2).
    destruct (are_nums_perm _ _ _ P3 AN) as (r' & A' & PR). rewrite (rsum_perm _ _ PR).
    apply (summed_nearly K (List.concat parts)); auto.
    + intros x Hx. apply PB. eapply Permutation_in; [apply Permutation_sym|]; eauto.
    + rewrite (Permutation_length P3). exact K1.
    + rewrite <- (rsum_perm _ _ PR). exact RB.
  - rewrite Q3. destruct (SF bin) as (k & K1 & K2). apply (summed_nearly k bin); auto. lia.
Qed.

Lemma two_steps_counts e : exact_sum f -> countable e (map snd df) ->
  exists g1 g2 g,
  aggregate_df_onto_DatetimeIndex true df (Aware fine) f label o = Ok g1 /\
  aggregate_df_onto_DatetimeIndex true g1 (Aware coarse) f label o = Ok g2 /\
  aggregate_df_onto_DatetimeIndex true df (Aware coarse) f label o = Ok g /\
  Forall2 (fun two one => fst two = fst one /\ n_eqb (snd two) (snd one) = true) g2 g.
Proof.
  intros SF C. destruct rows as (g1 & g2 & g & E1 & E2 & E & R). exists g1, g2, g. split; [exact E1|]. split; [exact E2|]. split; [exact E|].
  clear E1 E2 E. induction R as [|two one l l' (Q1 & p & parts & P1 & P2 & P4 & P3 & Q2 & Q3) R IH]; constructor; [|exact IH].
  split; [exact Q1|]. pose proof (countable_rows e p df C) as CB. set (bin := map snd (filter p df)) in *.
  assert (V1 : f_val (f bin) = XFin (rsum (map B2R bin))) by (apply (SF e); exact CB).
  destruct CB as (He & Hm & HB).
  assert (CC : countable e (List.concat parts)).
  { split; [exact He|]. split; [intros v Hv; apply Hm; eapply Permutation_in; [apply Permutation_sym|]; eauto|].
    apply Rle_trans with (2 := HB). apply Req_le. symmetry. apply rsum_perm. exact (Permutation_map (fun v : F64 => Rabs (B2R v)) P3). }
  assert (PP : forall l, In l parts -> f_val (f l) = XFin (rsum (map B2R l)) /\ exists z, rsum (map B2R l) = IZR z * bpow radix2 e).
  { intros l0 Hl. assert (M0 : forall v, In v l0 -> multiple e v) by (intros v Hv; apply CC; apply in_concat; eauto).
    split; [apply (SF e); split; [exact He|split; [exact M0|]]|apply rsum_multiple; auto].
    apply Rle_trans with (2 := proj2 (proj2 CC)). apply in_split in Hl. destruct Hl as (p1 & p2 & ->). rewrite concat_app. cbn [List.concat]. exact (asum_mid (List.concat p1) l0 (List.concat p2)). }
  assert (V2 : f_val (f (map f parts)) = XFin (rsum (map B2R (map f parts)))).
  { apply (SF e). split; [exact He|]. split.
    - intros v Hv. apply in_map_iff in Hv. destruct Hv as (l0 & <- & Hl). destruct (PP l0 Hl) as [V (z & Z)]. exists z. rewrite V, Z. reflexivity.
    - apply Rle_trans with (2 := proj2 (proj2 CC)). rewrite map_map. clear - PP. induction parts as [|l0 ps IH]; [cbn; lra|]. cbn [map List.concat]. rewrite map_app, rsum_app, rsum_cons.
      apply Rplus_le_compat; [|apply IH; intros; apply PP; right; auto]. destruct (PP l0 (or_introl eq_refl)) as [V _]. rewrite (f_val_B2R _ _ V). apply (rsum_abs_le (fun v : F64 => B2R v)). }
  assert (EQ : rsum (map B2R (map f parts)) = rsum (map B2R bin)).
  { transitivity (rsum (map B2R (List.concat parts))); [|symmetry; apply rsum_perm; exact (Permutation_map (fun v : F64 => B2R v) P3)]. rewrite map_map. clear - PP. induction parts as [|l0 ps IH]; [reflexivity|]. cbn [map List.concat]. rewrite map_app, rsum_app, rsum_cons.
    f_equal; [|apply IH; intros; apply PP; right; auto]. destruct (PP l0 (or_introl eq_refl)) as [V _]. apply f_val_B2R. exact V. }
  rewrite Q2, Q3. rewrite (val_eqb _ F64sem). change (val F64sem) with f_val. rewrite V2, V1, EQ. cbn. apply Req_bool_true. reflexivity.
Qed.
End Float.
