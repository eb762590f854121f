(** * The nearby-link notebook from raw levels on: times, finality, rain rates *)
From Coq Require Import List ZArith Bool Reals Lia Lra.
From Flocq Require Import Core IEEE754.BinarySingleNaN.
From Verif Require Import Base Num NumF64 NumList NpOps Libm RealStat Ulp64 HaversineFloat_spec FloatErr_spec FloatErr_proofs RainFloat_proofs KR_spec NearbyRain_spec NearbyRain_model NearbyRain_proofs
  NearbyWetdry_spec Stft_model Workflow_model Workflow_spec Workflow_proofs NearbyChain_model NearbyChain_spec NearbyChain_proofs NearbyNb_model NearbyNb_spec NearbyNb_proofs.
Import ListNotations.
Local Open Scope nat_scope.

(** ** whole seconds are exact in binary64 *)
Lemma grid512 z : (Z.abs z < 2 ^ 62)%Z -> (10 ^ 9 | z)%Z -> generic_format radix2 fexp64 (IZR z).
Proof.
  intros B [k ->]. replace (IZR (k * 10 ^ 9)) with (IZR (k * 1953125) * bpow radix2 9)%R.
  - apply grid_format; [|lia]. change (10 ^ 9)%Z with (1953125 * 512)%Z in B. change (2 ^ 62)%Z with (2 ^ 53 * 512)%Z in B. lia.
  - change (bpow radix2 9) with 512%R. rewrite <- mult_IZR. f_equal. lia.
Qed.
Lemma big_sec z : (Z.abs z < 2 ^ 62)%Z -> (Rabs (IZR z) <= big)%R.
Proof.
  intros H. rewrite <- abs_IZR. apply Rle_trans with (IZR (2 ^ 62)); [apply IZR_le, Z.lt_le_incl, H|].
  change (2 ^ 62)%Z with (radix2 ^ 62)%Z. rewrite IZR_Zpower by lia. apply bpow_le; lia.
Qed.
Lemma seconds_num z : whole_second z -> is_num (n_ofZ z : F64) (IZR z).
Proof.
  intros [B D]. unfold is_num. change (n_ofZ z : F64) with (f_ofZ z). unfold f_ofZ.
  pose proof (binary_normalize_correct 53 1024 _ _ mode_NE z 0 false) as H. cbv zeta in H.
  replace (F2R (Float radix2 z 0)) with (IZR z) in H by (unfold F2R; simpl; rewrite Rmult_1_r; reflexivity).
  rewrite round_NE_fold in H. rewrite rnd64_generic in H by (apply grid512; auto; lia).
  rewrite Rlt_bool_true in H.
  - destruct H as (H1 & H2 & _). rewrite f_val_finite by auto. rewrite H1; auto.
  - rewrite <- abs_IZR. apply Rlt_le_trans with (IZR (2 ^ 62)); [apply IZR_lt; lia|].
    change (2 ^ 62)%Z with (radix2 ^ 62)%Z. rewrite IZR_Zpower by lia. apply bpow_le; lia.
Qed.
Lemma short_seconds a b g : whole_second a -> whole_second b -> whole_second g ->
  n_leb (n_sub (n_ofZ b) (n_ofZ a)) (n_ofZ g : F64) = true <-> (b - a <= g)%Z.
Proof.
  intros A B G. assert (K : is_num (n_sub (n_ofZ b) (n_ofZ a) : F64) (IZR (b - a))).
  { rewrite minus_IZR. destruct A as [A1 A2], B as [B1 B2].
    assert (AB : (Z.abs (b - a) < 2 ^ 62)%Z) by lia. assert (DV : (10 ^ 9 | b - a)%Z) by (apply Z.divide_sub_r; auto).
    rewrite <- (rnd64_generic (IZR b - IZR a)) by (rewrite <- minus_IZR; apply grid512; auto).
    apply is_sub; [apply seconds_num; split; auto|apply seconds_num; split; auto|]. rewrite <- minus_IZR. apply big_sec; auto. }
  rewrite (num_leb _ _ _ _ K (seconds_num g G)). destruct (Rle_bool_spec (IZR (b - a)) (IZR g)) as [H|H].
  - apply le_IZR in H. tauto.
  - apply lt_IZR in H. split; [discriminate|lia].
Qed.
Lemma short_times times g i j : (forall t, In t times -> whole_second t) -> whole_second g -> i < length times -> j < length times ->
  short (map n_ofZ times) (n_ofZ g : F64) i j <-> (get 0 times j - get 0 times i <= g)%Z.
Proof.
  intros HT HG Hi Hj. unfold short. rewrite !(get_map _ 0%Z) by auto. apply short_seconds; auto; apply HT; apply nth_In; auto.
Qed.

Section Gen.
Context {O : numops} (S : numsem O).
Notation "l .[ i ]" := (get (n_nan : O) l i) (at level 2, left associativity, format "l .[ i ]").

(** ** what is known until [E] *)
Section Agree.
Variables (mg : O) (g E : Z) (m : nat) (times times' : list Z) (l l' : list O).
Notation x := (map n_ofZ times : list O).
Notation x' := (map n_ofZ times' : list O).
Hypotheses (AS : ascending times) (AS' : ascending times').
Hypotheses (SH : forall i j, i < length times -> j < length times -> short x mg i j -> (get 0 times j - get 0 times i <= g)%Z).
Hypotheses (SH' : forall i j, i < length times' -> j < length times' -> short x' mg i j -> (get 0 times' j - get 0 times' i <= g)%Z).
Hypotheses (HL : length l = length times) (HL' : length l' = length times') (Hm : m <= length times) (Hm' : m <= length times').
Hypothesis ET : forall t, t < m -> get 0%Z times t = get 0%Z times' t.
Hypothesis LT : forall t, m <= t < length times -> (E <= get 0%Z times t)%Z.
Hypothesis LT' : forall t, m <= t < length times' -> (E <= get 0%Z times' t)%Z.
Hypothesis EL : forall t, t < m -> l.[t] = l'.[t].

Lemma find_ext_rev (f f' : nat -> bool) t : (forall k, k < t -> f k = f' k) -> find f (rev (seq 0 t)) = find f' (rev (seq 0 t)).
Proof using.
  clear. intros H. assert (G : forall u, (forall k, In k u -> f k = f' k) -> find f u = find f' u).
  { induction u as [|a u IH]; intros K; [reflexivity|]. simpl. rewrite (K a) by (left; auto). destruct (f' a); auto. apply IH. intros; apply K; right; auto. }
  apply G. intros k Hk. apply in_rev in Hk. apply in_seq in Hk. apply H. lia.
Qed.
Lemma times_get (ts : list Z) t : t < length ts -> (map n_ofZ ts : list O).[t] = n_ofZ (get 0%Z ts t).
Proof using. clear. intros H. apply (get_map _ 0%Z). auto. Qed.
Lemma fill_agree t : t < m -> (get 0 times t + g <= E)%Z -> (interpolate_na x mg l).[t] = (interpolate_na x' mg l').[t].
Proof using AS AS' SH SH' HL HL' Hm Hm' ET LT LT' EL.
  intros Ht HE. rewrite !ina_get by lia. unfold nget. rewrite <- (EL t Ht). destruct (n_isnan l.[t]); [|reflexivity].
  assert (EB : last_valid_before l t = last_valid_before l' t).
  { unfold last_valid_before. apply find_ext_rev. intros k Hk. unfold nget. rewrite EL by lia. reflexivity. }
  rewrite <- EB. destruct (last_valid_before l t) as [i|] eqn:EI; [|reflexivity].
  assert (Hi : i < t) by (apply find_before in EI; tauto).
  assert (FAR : forall (ts : list Z) (z : list O) j, length z = length ts -> first_valid_after z t = Some j -> j < length ts).
  { intros ts z j Hz F. unfold first_valid_after in F. apply find_after in F. lia. }
  assert (NO : forall (ts : list Z) j, ascending ts -> m <= j -> j < length ts -> (forall u, m <= u < length ts -> (E <= get 0 ts u)%Z) -> (forall u, u < m -> get 0%Z times u = get 0%Z ts u) ->
            (forall a b, a < length ts -> b < length ts -> short (map n_ofZ ts : list O) mg a b -> (get 0 ts b - get 0 ts a <= g)%Z) ->
            n_leb (n_sub (map n_ofZ ts : list O).[j] (map n_ofZ ts : list O).[i]) mg = false).
  { intros ts j A J1 J2 LE TE SS. destruct (n_leb _ mg) eqn:K; [|reflexivity]. exfalso.
    specialize (SS i j ltac:(lia) J2 K). specialize (LE j ltac:(lia)). pose proof (A i t ltac:(lia)) as AT. rewrite <- (TE t Ht) in AT. lia. }
  assert (SAME : forall (z z' : list O) j, (forall u, u < m -> z.[u] = z'.[u]) -> m <= length z' -> first_valid_after z t = Some j -> j < m -> first_valid_after z' t = Some j).
  { intros z z' j EZ LZ F J. unfold first_valid_after in *. apply find_after in F as (F1 & F2 & F3). unfold nget in *.
    apply find_after_ex; [lia|rewrite <- EZ by auto; exact F2|]. intros k Hk. rewrite <- EZ by lia. apply F3; auto. }
  destruct (first_valid_after l t) as [j|] eqn:EJ.
  - pose proof (FAR times l j HL EJ) as J. destruct (Nat.lt_ge_cases j m) as [JM|JM].
    + rewrite (SAME l l' j EL ltac:(lia) EJ JM). rewrite !times_get by lia. rewrite !(ET t), !(ET i), !(ET j), <- (EL i), <- (EL j) by lia. reflexivity.
    + rewrite (NO times j AS JM J LT ltac:(auto) SH).
      destruct (first_valid_after l' t) as [j'|] eqn:EJ'; [|reflexivity].
      destruct (Nat.lt_ge_cases j' m) as [JM'|JM'].
      * rewrite (SAME l' l j' ltac:(intros; symmetry; auto) ltac:(lia) EJ' JM') in EJ. injection EJ as <-. lia.
      * rewrite (NO times' j' AS' JM' (FAR times' l' j' HL' EJ') LT' ET SH'). reflexivity.
  - destruct (first_valid_after l' t) as [j'|] eqn:EJ'; [|reflexivity].
    destruct (Nat.lt_ge_cases j' m) as [JM'|JM'].
    + rewrite (SAME l' l j' ltac:(intros; symmetry; auto) ltac:(lia) EJ' JM') in EJ. discriminate.
    + rewrite (NO times' j' AS' JM' (FAR times' l' j' HL' EJ') LT' ET SH'). reflexivity.
Qed.
End Agree.

Lemma filter_none {A} (f : A -> bool) l : (forall a, In a l -> f a = false) -> filter f l = [].
Proof using. induction l as [|a l IH]; intros H; [reflexivity|]. simpl. rewrite (H a) by (left; auto). apply IH. intros; apply H; right; auto. Qed.
Lemma values_agree w E m times times' (l l' : list O) n : (0 < w)%Z -> 1 <= m -> m <= length times -> m <= length times' ->
  length l = length times -> length l' = length times' ->
  (forall t, t < m -> get 0%Z times t = get 0%Z times' t) ->
  (forall t, m <= t < length times -> (E <= get 0%Z times t)%Z) -> (forall t, m <= t < length times' -> (E <= get 0%Z times' t)%Z) ->
  (bin_label w times 0 + w * (Z.of_nat n + 1) <= E)%Z ->
  (forall t, t < m -> in_bin w times (bin_label w times 0) n t -> l.[t] = l'.[t]) ->
  bin_values w times l n = bin_values w times' l' n.
Proof using.
  intros HW H1 Hm Hm' HL HL' ET LT LT' HE EL. rewrite !bin_values_seq by auto. rewrite !hd_get.
  assert (O0 : origin times = origin times') by (unfold origin; rewrite !hd_get, ET by lia; reflexivity).
  assert (BN : forall t, bin_no w times t = bin_no w times' t) by (intros; unfold bin_no; rewrite O0; reflexivity).
  assert (BL : bin_label w times 0 = bin_label w times' 0) by (unfold bin_label; rewrite !hd_get, BN, O0, ET by lia; reflexivity).
  replace (length times) with (m + (length times - m)) by lia. replace (length times') with (m + (length times' - m)) by lia.
  rewrite !seq_app, !filter_app, !map_app. cbn [Nat.add].
  rewrite (filter_none _ (seq m (length times - m))), (filter_none _ (seq m (length times' - m))).
  - cbn [map]. rewrite !app_nil_r.
    assert (EF : filter (fun i => (bin_no w times (get 0%Z times i) =? bin_no w times (get 0%Z times 0) + Z.of_nat n)%Z) (seq 0 m) =
                 filter (fun i => (bin_no w times' (get 0%Z times' i) =? bin_no w times' (get 0%Z times' 0) + Z.of_nat n)%Z) (seq 0 m)).
    { apply filter_ext_in. intros a Ha. apply in_seq in Ha. rewrite !BN, !ET by lia. reflexivity. }
    rewrite <- EF. apply map_ext_in. intros a Ha. apply filter_In in Ha as [Ha B]. apply in_seq in Ha. apply Z.eqb_eq in B.
    apply EL; [lia|]. split; [lia|]. apply bin_iff; auto.
  - intros a Ha. apply in_seq in Ha. apply Z.eqb_neq. intros B. apply bin_iff in B; auto. specialize (LT' a ltac:(lia)). rewrite <- BL in B. lia.
  - intros a Ha. apply in_seq in Ha. apply Z.eqb_neq. intros B. apply bin_iff in B; auto. specialize (LT a ltac:(lia)). lia.
Qed.

Lemma link_agree (p : nb_par O) g E m times times' (r r' s s' : list O) n agg :
  ascending times -> ascending times' -> (0 < nb_width p)%Z ->
  (forall i j, i < length times -> j < length times -> short (map n_ofZ times) (nb_gap p) i j -> (get 0 times j - get 0 times i <= g)%Z) ->
  (forall i j, i < length times' -> j < length times' -> short (map n_ofZ times') (nb_gap p) i j -> (get 0 times' j - get 0 times' i <= g)%Z) ->
  (0 <= g)%Z -> 1 <= m -> m <= length times -> m <= length times' ->
  length r = length times -> length s = length times -> length r' = length times' -> length s' = length times' ->
  (forall t, t < m -> get 0%Z times t = get 0%Z times' t) ->
  (forall t, m <= t < length times -> (E <= get 0%Z times t)%Z) -> (forall t, m <= t < length times' -> (E <= get 0%Z times' t)%Z) ->
  (forall t, t < m -> r.[t] = r'.[t]) -> (forall t, t < m -> s.[t] = s'.[t]) ->
  (bin_label (nb_width p) times 0 + nb_width p * (Z.of_nat n + 1) + g <= E)%Z ->
  n < bin_count (nb_width p) times -> n < bin_count (nb_width p) times' ->
  (resample agg (nb_width p) times (rstl (nb_lo p) (nb_hi p) (nb_gap p) times r s)).[n] =
  (resample agg (nb_width p) times' (rstl (nb_lo p) (nb_hi p) (nb_gap p) times' r' s')).[n].
Proof using.
  intros A A' HW SH SH' Hg H1 Hm Hm' L1 L2 L1' L2' ET LT LT' ER ES HE C C'. rewrite !resample_get by auto. f_equal.
  apply (values_agree _ E m); auto; try (apply rstl_length; auto); [lia|].
  intros t Ht [_ B]. rewrite !rstl_get by (auto; lia). f_equal.
  - apply (fill_agree (nb_gap p) g E m); rewrite ?above_length; auto; [|lia]. intros k Hk. rewrite !above_get by lia. rewrite ER by auto. reflexivity.
  - apply (fill_agree (nb_gap p) g E m); rewrite ?below_length; auto; [|lia]. intros k Hk. rewrite !below_get by lia. rewrite ES by auto. reflexivity.
Qed.

(** ** the whole notebook *)
Section Notebook.
Variables (L : libm O) (cubic : list O -> list O -> O -> O) (p : nb_par O) (q : nearby_par O) (nw : network O).
Notation W := (nb_width p).
Notation level ts r s := (rstl (nb_lo p) (nb_hi p) (nb_gap p) ts r s).

Lemma row_get f (rs ts : list (list O)) i : length ts = length rs -> i < length rs -> get [] (map2 f rs ts) i = f (get [] rs i) (get [] ts i) :> list O.
Proof using. intros H Hi. apply get_map2; auto. Qed.

Lemma notebook_final g E m times times' rsl rsl' tsl tsl' R R' :
  ascending times -> ascending times' -> (0 < W)%Z -> (0 <= g)%Z ->
  (forall i j, i < length times -> j < length times -> short (map n_ofZ times) (nb_gap p) i j -> (get 0 times j - get 0 times i <= g)%Z) ->
  (forall i j, i < length times' -> j < length times' -> short (map n_ofZ times') (nb_gap p) i j -> (get 0 times' j - get 0 times' i <= g)%Z) ->
  length tsl = length rsl ->
  (forall i, i < length rsl -> length (get [] rsl i) = length times /\ length (get [] tsl i) = length times) ->
  (forall i, i < length rsl' -> length (get [] rsl' i) = length times' /\ length (get [] tsl' i) = length times') ->
  same_until E m times times' rsl rsl' tsl tsl' ->
  record_ok q nw (bin_count W times) (map2 (link_min p times) rsl tsl) (map2 (link_max p times) rsl tsl) ->
  record_ok q nw (bin_count W times') (map2 (link_min p times') rsl' tsl') (map2 (link_max p times') rsl' tsl') ->
  nearby_notebook L cubic p q nw times rsl tsl = Ok R -> nearby_notebook L cubic p q nw times' rsl' tsl' = Ok R' ->
  forall i k, i < length rsl -> k + 3 <= bin_count W times -> k + 3 <= bin_count W times' ->
    (bin_label W times 0 + W * (Z.of_nat k + 3) + g <= E)%Z -> cell R i k = cell R' i k.
Proof using S.
  intros A A' HW Hg SH SH' LN LR LR' (Hm & Hm' & N1 & N2 & ET & LT & LT' & ER & ES) C C' RUN RUN' i k Hi K K' HE.
  assert (AG : forall agg, same_start (k + 3)
      (map2 (fun r s => resample agg W times (level times r s)) rsl tsl) (map2 (fun r s => resample agg W times' (level times' r s)) rsl' tsl')).
  { intros agg. split; [rewrite !map2_length by congruence; auto|]. intros i' t Hi' Ht. rewrite map2_length in Hi' by congruence.
    unfold cell. rewrite !row_get by (try congruence; lia). destruct (LR i' Hi') as [Q1 Q2]. destruct (LR' i' ltac:(lia)) as [Q3 Q4].
    apply (link_agree p g E m); auto; try lia; [intros; apply ES; auto; lia|nia]. }
  apply (final_after_two S L cubic q nw (k + 3) (bin_count W times) (bin_count W times') _ _ _ _ R R' C C' K K' (AG nanmin) (AG nanmax) RUN RUN'); [|lia].
  rewrite map2_length by congruence. exact Hi.
Qed.

Lemma notebook_rain (sane : pow_sane L) (pn : pow_nan L) (pz : NearbyRain_spec.pow_zero L) g times rsl tsl :
  ascending times -> times <> [] -> (0 < W)%Z ->
  (forall i j, i < length times -> j < length times -> short (map n_ofZ times) (nb_gap p) i j -> (get 0 times j - get 0 times i <= g)%Z) ->
  length tsl = length rsl ->
  (forall i, i < length rsl -> length (get [] rsl i) = length times /\ length (get [] tsl i) = length times) ->
  record_ok q nw (bin_count W times) (map2 (link_min p times) rsl tsl) (map2 (link_max p times) rsl tsl) ->
  links_ok cubic nw (length rsl) -> par_ok q ->
  exists R, nearby_notebook L cubic p q nw times rsl tsl = Ok R /\ length R = length rsl /\
    forall i, i < length rsl -> length (get [] R i) = bin_count W times /\ forall n, n < bin_count W times ->
      (missing (cell R i n) \/ nonneg (cell R i n)) /\
      ((forall t, in_bin W times (bin_label W times 0) n t ->
          ~ (reached (received (nb_lo p) (get [] rsl i)) times g t /\ reached (sent (nb_hi p) (get [] tsl i)) times g t)) ->
       missing (cell R i n) \/ n_eqb (cell R i n) (n_ofZ 0) = true).
Proof using S.
  intros A HN HW SH LN LR C LK PO.
  assert (LM : length (map2 (link_min p times) rsl tsl) = length rsl) by (apply map2_length; congruence).
  destruct (chain_results S L cubic sane pn pz q nw (bin_count W times) _ _ C ltac:(rewrite LM; exact LK) PO) as (wet & F & R & _ & E & L1 & G).
  exists R. rewrite LM in L1, G. split; [exact E|]. split; [exact L1|]. intros i Hi. destruct (G i Hi) as [G1 G2]. split; [exact G1|].
  intros n Hn. destruct (G2 n Hn) as (P1 & P2 & _). split; [exact P1|]. intros H. apply P2. right.
  destruct (LR i Hi) as [Q1 Q2]. unfold cell. rewrite row_get by congruence. unfold link_min.
  destruct (resample_extremes S W times (level times (get [] rsl i) (get [] tsl i)) n HW (rstl_length _ _ _ _ _ _ Q1 Q2) Hn) as [X _].
  apply X. intros t B. unfold missing. destruct (n_isnan _) eqn:V; [reflexivity|]. exfalso. apply (H t B).
  apply (rstl_reached S _ _ (nb_gap p) times _ _ Q1 Q2 g t SH); [apply B|]. unfold missing. congruence.
Qed.

Lemma corrected_order times (r s wet pref : list O) : (0 < W)%Z -> length r = length times -> length s = length times ->
  length wet = bin_count W times -> length pref = bin_count W times ->
  exists cmin cmax, nearby_correct_received_signals (link_min p times r s) (link_max p times r s) wet pref = (cmin, cmax) /\
    forall n, n < bin_count W times -> ~ missing pref.[n] -> n_leb cmin.[n] cmax.[n] = true /\ n_leb cmax.[n] pref.[n] = true.
Proof using S.
  intros HW H1 H2 H3 H4. destruct (correct_signals S (link_min p times r s) (link_max p times r s) wet pref (bin_count W times)) as (cmin & cmax & E & _ & _ & G);
    try (apply resample_length); auto.
  exists cmin, cmax. split; [exact E|]. intros n Hn NP. apply not_true_is_false in NP. destruct (G n Hn) as (G1 & G2 & G3). cbv zeta in G1, G2. destruct (G3 NP) as [G4 G5].
  split; [|exact G5]. rewrite G1, G2. rewrite G1 in G4. destruct (n_eqb wet.[n] (n_ofZ 1) && n_ltb (link_min p times r s).[n] pref.[n]) eqn:RA; cbn [andb].
  - destruct (n_ltb (link_max p times r s).[n] pref.[n]) eqn:RB; [|exact G4].
    apply andb_prop in RA as [_ RA]. destruct (ltb_num S _ _ RA) as [NM _].
    destruct (resample_extremes S W times (level times r s) n HW (rstl_length _ _ _ _ _ _ H1 H2) Hn) as [X1 X2].
    unfold link_min, link_max in *. set (l := level times r s) in *.
    assert (EX : exists t, in_bin W times (bin_label W times 0) n t /\ ~ missing l.[t]).
    { rewrite resample_get in NM by auto. destruct (nanmin_spec S (bin_values W times l n)) as [M1 _].
      destruct (existsb (fun v => negb (n_isnan v)) (bin_values W times l n)) eqn:EB.
      - apply existsb_exists in EB as (v & V1 & V2). apply (in_values W times l n v HW) in V1; [|apply rstl_length; auto]. destruct V1 as (t & B & <-). exists t. split; [exact B|].
        apply negb_true_iff in V2. unfold missing. congruence.
      - exfalso. unfold missing in M1. rewrite M1 in NM; [discriminate|]. intros v Hv. destruct (n_isnan v) eqn:V; [reflexivity|].
        assert (existsb (fun v => negb (n_isnan v)) (bin_values W times l n) = true); [|congruence]. apply existsb_exists. exists v. rewrite V. auto. }
    destruct EX as (t & B & NT). destruct (X2 t B NT) as (X3 & X4 & _). eapply (leb_trans S); eauto.
  - apply (leb_refl S); auto.
Qed.
End Notebook.
End Gen.

(** ** filled levels in exact arithmetic *)
Lemma level_line (lo hi mg : XR) (times : list Z) (rsl tsl : list XR) i t j a b s :
  length rsl = length times -> length tsl = length times -> ascending times ->
  in_gap (received lo rsl) (length times) i t j -> short (map n_ofZ times) mg i j ->
  get n_nan rsl i = XFin a -> get n_nan rsl j = XFin b -> sent hi tsl t -> get n_nan tsl t = XFin s ->
  get n_nan (rstl lo hi mg times rsl tsl) t =
    XFin (a + (b - a) * (IZR (get 0%Z times t - get 0%Z times i) / IZR (get 0%Z times j - get 0%Z times i)) - s).
Proof.
  intros HR HT HA G SH A B ST ES. pose proof G as (G1 & G2 & G3 & G4 & _).
  rewrite (rstl_get (O := XR)) by (auto; lia).
  assert (G' : in_gap (valid (where_above lo rsl)) (length rsl) i t j).
  { refine (proj2 (gap_iff (valid (where_above lo rsl)) _ (length rsl) _ i t j _ HR) G). intros; apply (above_valid XRsem); auto. }
  rewrite (ina_gap (O := XR) _ _ (where_above lo rsl) i t j); [|rewrite above_length; exact G'|exact SH].
  rewrite (ina_valid (O := XR)); [|rewrite below_length; lia|apply (below_valid XRsem); [lia|exact ST]].
  rewrite !(above_get (O := XR)), (below_get (O := XR)) by lia. unfold received in G3, G4. unfold sent in ST. rewrite G3, G4, ST, A, B, ES.
  rewrite !(times_get (O := XR)) by lia.
  pose proof (HA i j ltac:(lia)) as H1. apply IZR_lt in H1. rewrite !minus_IZR.
  set (ti := IZR (get 0%Z times i)) in *. set (tj := IZR (get 0%Z times j)) in *. set (tt := IZR (get 0%Z times t)).
  change (n_ofZ (get 0%Z times i) : XR) with (XFin ti). change (n_ofZ (get 0%Z times j) : XR) with (XFin tj). change (n_ofZ (get 0%Z times t) : XR) with (XFin tt).
  change (xsub (xadd (xmul (xdiv (XFin (b - a)) (XFin (tj - ti))) (XFin (tt - ti))) (XFin a)) (XFin s) = XFin (a + (b - a) * ((tt - ti) / (tj - ti)) - s)).
  unfold xdiv. rewrite Req_bool_false by lra.
  change (XFin ((b - a) / (tj - ti) * (tt - ti) + a - s) = XFin (a + (b - a) * ((tt - ti) / (tj - ti)) - s)). apply (f_equal XFin). field. lra.
Qed.
