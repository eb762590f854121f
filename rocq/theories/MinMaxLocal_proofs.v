From Coq Require Import List ZArith Bool Lia Arith Reals Lra String.
From Flocq Require Import Core.
From Verif Require Import Base Num NumF64 NumList NpOps RealSpec RealStat Libm Libm64 Ulp64 KR_model KR_spec KR_proofs Chain_spec Chain_proofs
  HaversineFloat_spec HaversineFloat_proofs FloatErr_spec FloatErr_proofs MinMax_model MinMax_spec MinMax_proofs MinMaxLocal_spec.
Import ListNotations.
Local Open Scope nat_scope.
Local Notation length := List.length.

Section Any.
Context {O : numops} (S : numsem O).

Definition att (m : mm_levels O) gT gR w := calc_A_min_max (tx_lo m) (tx_hi m) (rx_lo m) (rx_hi m) gT gR w.

(** entry [i] from the recorded values alone *)
Lemma att_entry m gT gR w n out i : steps n m -> att m gT gR w = Ok out -> w <= i -> i < n -> recorded gT gR w i m ->
  exists v, np_min (map (least m gT gR) (seq (i - w) (w + 1))) = Ok v /\
    get n_nan out i = positive_part (n_sub (most m gT gR i) v).
Proof using S.
  intros (L1 & L2 & L3 & L4) E Hw Hi [Hm Hl].
  destruct (min_max_det (tx_lo m) (tx_hi m) (rx_lo m) (rx_hi m) gT gR w n L1 L2 L3 L4) as (out' & E' & _ & _ & H).
  unfold att in E. rewrite E in E'. injection E' as <-.
  destruct (H i Hi Hw) as (v & V & G). exists v. split.
  - rewrite <- V. f_equal. apply map_ext_in. intros k Hk. apply in_seq in Hk. unfold filled.
    change (corrected_min (tx_lo m) (rx_hi m) gT gR k) with (least m gT gR k). rewrite (Hl k) by lia. reflexivity.
  - rewrite G. unfold filled at 1. change (corrected_max (tx_hi m) (rx_lo m) gT gR i) with (most m gT gR i). rewrite Hm. reflexivity.
Qed.

Lemma att_ok m gT gR w n : steps n m -> exists out, att m gT gR w = Ok out /\ length out = n.
Proof using S.
  intros (L1 & L2 & L3 & L4). destruct (min_max_main S (tx_lo m) (tx_hi m) (rx_lo m) (rx_hi m) gT gR w n L1 L2 L3 L4) as (out & E & L & _).
  exists out. auto.
Qed.

Lemma most_same w i j (m m' : mm_levels O) gT gR : same_window w i j m m' -> most m gT gR i = most m' gT gR j.
Proof using.
  intros H. destruct (H 0 ltac:(lia)) as (_ & H2 & H3 & _). rewrite !Nat.sub_0_r in *. unfold most, corrected_max. rewrite H2, H3. reflexivity.
Qed.
Lemma least_same w i j (m m' : mm_levels O) gT gR k : same_window w i j m m' -> k <= w -> least m gT gR (i - k) = least m' gT gR (j - k).
Proof using.
  intros H Hk. destruct (H k Hk) as (H1 & _ & _ & H4). unfold least, corrected_min. rewrite H1, H4. reflexivity.
Qed.

(** ** nothing but the window counts *)
Lemma local_att m m' gT gR w n n' out out' i j : steps n m -> steps n' m' ->
  att m gT gR w = Ok out -> att m' gT gR w = Ok out' -> w <= i -> i < n -> w <= j -> j < n' ->
  same_window w i j m m' -> recorded gT gR w i m -> get n_nan out i = get n_nan out' j.
Proof using S.
  intros Hs Hs' E E' Wi Hi Wj Hj SW RC.
  assert (RC' : recorded gT gR w j m').
  { destruct RC as [A B]. split; [rewrite <- (most_same _ _ _ _ _ _ _ SW); auto|]. intros k Hk.
    replace k with (j - (j - k)) by lia. rewrite <- (least_same _ _ _ _ _ _ _ (j - k) SW) by lia. apply B. lia. }
  destruct (att_entry _ _ _ _ _ _ _ Hs E Wi Hi RC) as (v & V & G). destruct (att_entry _ _ _ _ _ _ _ Hs' E' Wj Hj RC') as (v' & V' & G').
  assert (v = v').
  { assert (Q : map (least m gT gR) (seq (i - w) (w + 1)) = map (least m' gT gR) (seq (j - w) (w + 1))).
    { apply get_ext with n_nan; [rewrite !map_length, !seq_length; auto|]. rewrite map_length, seq_length. intros k Hk.
      rewrite !get_map with (d := 0) by (rewrite seq_length; auto). unfold get. rewrite !seq_nth by auto.
      replace (i - w + k) with (i - (w - k)) by lia. replace (j - w + k) with (j - (w - k)) by lia. apply least_same with w; auto. lia. }
    rewrite Q in V. congruence. }
  subst v'. rewrite G, G', (most_same _ _ _ _ _ _ _ SW). reflexivity.
Qed.

(** ** order *)
Lemma sub_le (x x' y y' : O) : n_leb x x' = true -> n_leb y' y = true -> n_isnan (n_sub x y) = false -> n_isnan (n_sub x' y') = false ->
  n_leb (n_sub x y) (n_sub x' y') = true.
Proof using S.
  rewrite !(val_leb _ S), !(val_isnan _ S), !(val_sub _ S), !(rnd_nan _ S). intros A B C D. apply (rnd_mono _ S).
  destruct (val S x) as [| |a|], (val S x') as [| |a'|], (val S y) as [| |b|], (val S y') as [| |b'|]; try discriminate; cbn [xsub xadd xopp] in *; try discriminate; auto.
  apply xleb_fin in A, B. apply xleb_fin. lra.
Qed.
Lemma add_le (x x' c : O) : n_leb x x' = true -> n_isnan (n_add x c) = false -> n_isnan (n_add x' c) = false -> n_leb (n_add x c) (n_add x' c) = true.
Proof using S.
  rewrite !(val_leb _ S), !(val_isnan _ S), !(val_add _ S), !(rnd_nan _ S). intros A C D. apply (rnd_mono _ S).
  destruct (val S x) as [| |a|], (val S x') as [| |a'|], (val S c) as [| |b|]; try discriminate; cbn [xadd xopp] in *; try discriminate; auto.
  apply xleb_fin in A. apply xleb_fin. lra.
Qed.
Lemma sub_nan (x y : O) : n_isnan (n_sub x y) = false -> n_isnan x = false /\ n_isnan y = false.
Proof using S.
  rewrite !(val_isnan _ S), (val_sub _ S), (rnd_nan _ S). destruct (val S x), (val S y); simpl; auto; discriminate.
Qed.
Lemma add_nan (x y : O) : n_isnan (n_add x y) = false -> n_isnan x = false /\ n_isnan y = false.
Proof using S.
  rewrite !(val_isnan _ S), (val_add _ S), (rnd_nan _ S). destruct (val S x), (val S y); simpl; auto; discriminate.
Qed.
Lemma sub_fin_nan (x y : O) : finite x -> finite y -> n_isnan (n_sub x y) = false.
Proof using S.
  intros [A B] [C D]. rewrite !(val_isnan _ S) in *. rewrite !(val_isinf _ S) in *. rewrite (val_sub _ S), (rnd_nan _ S).
  destruct (val S x), (val S y); try discriminate; auto.
Qed.
Lemma positive_part_le (x y : O) : n_leb x y = true -> n_leb (positive_part x) (positive_part y) = true.
Proof using S.
  intros H. destruct (leb_nan S _ _ H) as [N N']. unfold positive_part. rewrite !(val_leb _ S) in *. rewrite !(val_ltb _ S), !(val_isnan _ S) in *.
  assert (Z0 := val_0 S). destruct (xltb (val S x) _) eqn:E, (xltb (val S y) _) eqn:E'; rewrite ?Z0 in *; auto.
  - apply xleb_refl; auto.
  - rewrite xleb_negb_ltb by auto. rewrite E'. auto.
  - exfalso. pose proof (xleb_ltb_trans _ _ _ H E'). congruence.
Qed.

Lemma min_of (m : mm_levels O) gT gR w i v : recorded gT gR w i m -> w <= i -> np_min (map (least m gT gR) (seq (i - w) (w + 1))) = Ok v ->
  (exists k, i - w <= k <= i /\ v = least m gT gR k) /\ forall k, i - w <= k <= i -> n_leb v (least m gT gR k) = true.
Proof using S.
  intros [_ RC] Wi V. pose proof (np_min_spec S _ _ V) as M. unfold is_min in M.
  destruct (existsb _ _) eqn:X.
  { exfalso. apply existsb_exists in X as (y & Hy & Ny). apply in_map_iff in Hy as (k & <- & Hk). apply in_seq in Hk. rewrite RC in Ny by lia. discriminate. }
  destruct M as [I M]. split.
  - apply in_map_iff in I as (k & <- & Hk). apply in_seq in Hk. exists k. split; [lia|auto].
  - intros k Hk. apply M, in_map_iff. exists k. split; auto. apply in_seq. lia.
Qed.

Lemma finite_recorded gT gR w i (m : mm_levels O) : recorded_finite gT gR w i m -> recorded gT gR w i m.
Proof using. intros [A B]. split; [apply A|]. intros k Hk. apply B; auto. Qed.

Lemma mono_att m m' gT gR w n out out' i : steps n m -> steps n m' -> att m gT gR w = Ok out -> att m' gT gR w = Ok out' -> w <= i -> i < n ->
  recorded_finite gT gR w i m -> recorded_finite gT gR w i m' ->
  n_leb (get n_nan (tx_hi m) i) (get n_nan (tx_hi m') i) = true -> n_leb (get n_nan (rx_lo m') i) (get n_nan (rx_lo m) i) = true ->
  (forall k, i - w <= k <= i -> n_leb (get n_nan (tx_lo m') k) (get n_nan (tx_lo m) k) = true /\ n_leb (get n_nan (rx_hi m) k) (get n_nan (rx_hi m') k) = true) ->
  n_leb (get n_nan out i) (get n_nan out' i) = true.
Proof using S.
  intros Hs Hs' E E' Wi Hi RF RF' H1 H2 H3. pose proof (finite_recorded _ _ _ _ _ RF) as RC. pose proof (finite_recorded _ _ _ _ _ RF') as RC'.
  destruct (att_entry _ _ _ _ _ _ _ Hs E Wi Hi RC) as (v & V & G). destruct (att_entry _ _ _ _ _ _ _ Hs' E' Wi Hi RC') as (v' & V' & G').
  destruct (min_of _ _ _ _ _ _ RC Wi V) as [(k & Hk & Ek) Mv]. destruct (min_of _ _ _ _ _ _ RC' Wi V') as [(k' & Hk' & Ek') Mv'].
  rewrite G, G'. apply positive_part_le. apply sub_le.
  - unfold most, corrected_max. destruct RC as [R1 _], RC' as [R1' _]. unfold most, corrected_max in R1, R1'. destruct (sub_nan _ _ R1) as [A B], (sub_nan _ _ R1') as [A' B'].
    apply sub_le; auto; [apply sub_le; auto|]. apply (leb_refl S). auto.
  - apply (leb_trans S) with (least m' gT gR k); [apply Mv'; auto|]. rewrite Ek. unfold least, corrected_min.
    destruct RC as [_ R1], RC' as [_ R1']. specialize (R1 k Hk). specialize (R1' k Hk). unfold least, corrected_min in R1, R1'.
    destruct (add_nan _ _ R1) as [A B], (add_nan _ _ R1') as [A' B']. destruct (H3 k Hk) as [C D]. apply add_le; auto. apply sub_le; auto.
  - rewrite Ek. destruct RF as [F1 F2]. apply sub_fin_nan; auto.
  - rewrite Ek'. destruct RF' as [F1 F2]. apply sub_fin_nan; auto.
Qed.

(** ** the rain rates *)
Variable L : libm O.
Variable cubic : list O -> list O -> O -> O.
Definition rain A len a b pol R_min k := calc_R_from_A_min_max L cubic A len None (Some (CScalar a)) (Some (CScalar b)) pol R_min k.

Lemma rain_eq A len a b pol R_min k : positive b -> rain A len a b pol R_min k = Ok (map (rate L (divisor L a b len k) (n_div one b) R_min) A).
Proof using S.
  intros Hb. unfold rain. rewrite (min_max_calibrated L cubic A len a b pol ""%string R_min k). cbn [calc_R_from_A].
  apply power_law_elementwise; auto. apply (coef_inv_scalar S); auto.
Qed.
Lemma rain_get A len a b pol R_min k out i : positive b -> rain A len a b pol R_min k = Ok out -> i < length A ->
  get n_nan out i = rate L (divisor L a b len k) (n_div one b) R_min (get n_nan A i).
Proof using S.
  intros Hb E Hi. rewrite rain_eq in E by auto. injection E as <-. apply get_map. auto.
Qed.

Lemma local_rain m m' gT gR w n n' len a b pol R_min k A A' out out' i j : positive b -> steps n m -> steps n' m' ->
  att m gT gR w = Ok A -> att m' gT gR w = Ok A' -> rain A len a b pol R_min k = Ok out -> rain A' len a b pol R_min k = Ok out' ->
  w <= i -> i < n -> w <= j -> j < n' -> same_window w i j m m' -> recorded gT gR w i m -> get n_nan out i = get n_nan out' j.
Proof using S.
  intros Hb Hs Hs' E E' R R' Wi Hi Wj Hj SW RC.
  destruct (att_ok m gT gR w n Hs) as (X & EX & LX). destruct (att_ok m' gT gR w n' Hs') as (X' & EX' & LX').
  assert (X = A) by congruence. assert (X' = A') by congruence. subst X X'.
  rewrite (rain_get _ _ _ _ _ _ _ _ _ Hb R) by lia. rewrite (rain_get _ _ _ _ _ _ _ _ _ Hb R') by lia.
  f_equal. exact (local_att m m' gT gR w n n' A A' i j Hs Hs' E E' Wi Hi Wj Hj SW RC).
Qed.

Lemma mono_rain (sane : pow_sane L) (mono : pow_mono L) m m' gT gR w n len a b pol R_min k A A' out out' i :
  positive b -> positive (divisor L a b len k) -> finite (divisor L a b len k) -> steps n m -> steps n m' ->
  att m gT gR w = Ok A -> att m' gT gR w = Ok A' -> rain A len a b pol R_min k = Ok out -> rain A' len a b pol R_min k = Ok out' -> w <= i -> i < n ->
  recorded_finite gT gR w i m -> recorded_finite gT gR w i m' ->
  n_leb (get n_nan (tx_hi m) i) (get n_nan (tx_hi m') i) = true -> n_leb (get n_nan (rx_lo m') i) (get n_nan (rx_lo m) i) = true ->
  (forall j, i - w <= j <= i -> n_leb (get n_nan (tx_lo m') j) (get n_nan (tx_lo m) j) = true /\ n_leb (get n_nan (rx_hi m) j) (get n_nan (rx_hi m') j) = true) ->
  n_leb (get n_nan out i) (get n_nan out' i) = true.
Proof using S.
  intros Hb HD FD Hs Hs' E E' R R' Wi Hi RF RF' H1 H2 H3.
  destruct (att_ok m gT gR w n Hs) as (X & EX & LX). destruct (att_ok m' gT gR w n Hs') as (X' & EX' & LX').
  assert (X = A) by congruence. assert (X' = A') by congruence. subst X X'.
  rewrite (rain_get _ _ _ _ _ _ _ _ _ Hb R) by lia. rewrite (rain_get _ _ _ _ _ _ _ _ _ Hb R') by lia.
  apply (rate_mono S L sane mono); auto; [apply (inv_nonneg S); auto|]. exact (mono_att m m' gT gR w n A A' i Hs Hs' E E' Wi Hi RF RF' H1 H2 H3).
Qed.

(** ** quiet links *)
Lemma quiet_att m gT gR w n out i : steps n m -> att m gT gR w = Ok out -> w <= i -> i < n -> recorded_finite gT gR w i m ->
  (forall k, i - w <= k <= i -> n_leb (most m gT gR i) (least m gT gR k) = true) -> n_eqb (get n_nan out i) (n_ofZ 0) = true.
Proof using S.
  intros Hs E Wi Hi RF Q. pose proof (finite_recorded _ _ _ _ _ RF) as RC. destruct (att_entry _ _ _ _ _ _ _ Hs E Wi Hi RC) as (v & V & G).
  destruct (min_of _ _ _ _ _ _ RC Wi V) as [(k & Hk & ->) _]. rewrite G. specialize (Q k Hk). destruct RF as [[N1 I1] F2]. destruct (F2 k Hk) as [N2 I2].
  unfold positive_part. destruct (n_ltb _ _) eqn:T.
  - rewrite (val_eqb _ S), (val_0 S). apply xeqb_true. auto.
  - rewrite (val_ltb _ S), (val_0 S), (val_sub _ S) in T. rewrite (val_eqb _ S), (val_0 S), (val_sub _ S).
    rewrite (val_leb _ S) in Q. rewrite (val_isnan _ S) in *. rewrite (val_isinf _ S) in *.
    destruct (val S (most m gT gR i)) as [| |x|], (val S (least m gT gR k)) as [| |y|]; try discriminate. apply xleb_fin in Q. cbn [xsub xadd xopp] in *.
    assert (C : xleb (rnd S (XFin (x + - y))) (XFin 0) = true) by (rewrite <- (rnd_0 S); apply (rnd_mono _ S), xleb_fin; lra).
    destruct (rnd S (XFin (x + - y))) as [| |r|]; try discriminate. apply xleb_fin in C. simpl in T. destruct (Rlt_bool_spec r 0); [discriminate|].
    apply xeqb_true. split; [f_equal; lra|reflexivity].
Qed.

Lemma quiet_rain (pz : Chain_spec.pow_zero L) m gT gR w n len a b pol R_min k A out i : positive b -> positive (n_div one b) ->
  positive (divisor L a b len k) -> steps n m -> att m gT gR w = Ok A -> rain A len a b pol R_min k = Ok out -> w <= i -> i < n -> recorded_finite gT gR w i m ->
  (forall j, i - w <= j <= i -> n_leb (most m gT gR i) (least m gT gR j) = true) -> n_eqb (get n_nan out i) (n_ofZ 0) = true.
Proof using S.
  intros Hb He HD Hs E R Wi Hi RF Q. destruct (att_ok m gT gR w n Hs) as (X & EX & LX). assert (X = A) by congruence. subst X.
  rewrite (rain_get _ _ _ _ _ _ _ _ _ Hb R) by lia. pose proof (quiet_att m gT gR w n A i Hs E Wi Hi RF Q) as Z.
  set (x := get n_nan A i) in *. unfold rate. rewrite (val_eqb _ S), (val_0 S) in Z. apply xeqb_true in Z as [Z _].
  rewrite (val_isnan _ S), Z. cbn [xisnan]. assert (T : n_leb zero x = true) by (unfold zero; rewrite (val_leb _ S), (val_0 S), Z; apply xleb_refl; auto).
  rewrite T. cbv zeta. assert (P : n_eqb (m_pow L (n_div x (divisor L a b len k)) (n_div one b)) (n_ofZ 0) = true).
  { apply pz; auto. rewrite (val_eqb _ S), (val_0 S). apply (val_positive S) in HD. rewrite (val_div _ S), Z.
    - destruct (val S (divisor L a b len k)) as [| |d|]; try discriminate.
      + apply xltb_fin in HD. rewrite xdiv_fin by lra. replace (0 / d)%R with 0%R by (unfold Rdiv; ring). rewrite (rnd_0 S). apply xeqb_true. auto.
      + change (xdiv (XFin 0) XPInf) with (XFin 0). rewrite (rnd_0 S). apply xeqb_true. auto.
    - intros C. rewrite C in HD. apply xltb_fin in HD. lra. }
  destruct (n_ltb _ R_min); auto. unfold zero. rewrite (val_eqb _ S), (val_0 S). apply xeqb_true. auto.
Qed.
End Any.

(** ** binary64: zero exactly for quiet links *)
Lemma sub_positive (x y : F64) a b : is_num x a -> is_num y b -> (b < a)%R -> n_ltb (n_ofZ 0) (n_sub x y) = true.
Proof.
  intros X Y H. pose proof (sub_rel x y a b X Y) as E. rewrite (Rabs_pos_eq (a - b)) in E by lra. pose proof u64_small as U. pose proof u64_pos.
  assert (P : (0 < rnd64 (a - b))%R).
  { apply Rabs_le_inv in E. assert (u64 * (a - b) <= / 1024 * (a - b))%R by (apply Rmult_le_compat_r; lra). lra. }
  rewrite (val_ltb _ F64sem), (val_0 F64sem), (val_sub _ F64sem). change (xltb (XFin 0) (f_rnd (xsub (f_val x) (f_val y))) = true). rewrite X, Y. cbn [xsub xadd xopp].
  change (a + - b)%R with (a - b)%R. unfold f_rnd. destruct (Rlt_bool _ _); [apply xltb_fin; auto|]. rewrite Rlt_bool_false by lra. reflexivity.
Qed.
Lemma finite_num (x : F64) : finite x -> exists r, is_num x r.
Proof.
  intros [A B]. rewrite (val_isnan _ F64sem) in A. rewrite (val_isinf _ F64sem) in B. unfold is_num. change (val F64sem x) with (f_val x) in *.
  destruct (f_val x) as [| |r|]; try discriminate. exists r. reflexivity.
Qed.

Lemma zero_iff_quiet (m : mm_levels F64) gT gR w n out i : steps n m -> att m gT gR w = Ok out -> w <= i -> i < n -> recorded_finite gT gR w i m ->
  n_eqb (get n_nan out i) (n_ofZ 0) = true <-> forall k, i - w <= k <= i -> n_leb (most m gT gR i) (least m gT gR k) = true.
Proof.
  intros Hs E Wi Hi RF. split; [|apply (quiet_att F64sem m gT gR w n out i); auto].
  intros Z k Hk. pose proof (finite_recorded _ _ _ _ _ RF) as RC. destruct (att_entry F64sem _ _ _ _ _ _ _ Hs E Wi Hi RC) as (v & V & G).
  destruct (min_of F64sem _ _ _ _ _ _ RC Wi V) as [(j & Hj & Ej) M]. specialize (M k Hk). apply (leb_trans F64sem) with v; auto.
  destruct RF as [F1 F2]. destruct (finite_num _ F1) as [x X]. destruct (finite_num _ (F2 j Hj)) as [y Y]. rewrite <- Ej in Y.
  destruct (Rle_lt_dec x y) as [H|H].
  - rewrite (val_leb _ F64sem). change (xleb (f_val (most m gT gR i)) (f_val v) = true). rewrite X, Y. apply xleb_fin. auto.
  - exfalso. pose proof (sub_positive _ _ _ _ X Y H) as P. rewrite G in Z. unfold positive_part in Z. rewrite (val_ltb _ F64sem) in P. rewrite (val_0 F64sem) in P.
    destruct (n_ltb (n_sub (most m gT gR i) v) (n_ofZ 0)) eqn:T.
    + rewrite (val_ltb _ F64sem), (val_0 F64sem) in T. destruct (val F64sem (n_sub (most m gT gR i) v)) as [| |r|]; try discriminate. apply xltb_fin in P, T. lra.
    + rewrite (val_eqb _ F64sem), (val_0 F64sem) in Z. apply xeqb_true in Z as [Z _]. rewrite Z in P. apply xltb_fin in P. lra.
Qed.

(** ** exact arithmetic *)
Lemma excess_att tl th rl rh gT gR w n out i : length tl = n -> length th = n -> length rl = n -> length rh = n ->
  att (real_levels tl th rl rh) (XFin gT : XR) (XFin gR : XR) w = Ok out -> w <= i -> i < n ->
  exists k, i - w <= k <= i /\ (forall j, i - w <= j <= i -> (excess tl th rl rh i j <= excess tl th rl rh i k)%R) /\
    get (n_nan : XR) out i = (XFin (Rmax 0 (excess tl th rl rh i k - (gT + gR)))%R : XR).
Proof.
  intros L1 L2 L3 L4 E Wi Hi. set (m := real_levels tl th rl rh).
  assert (EB : bias (XFin gT : XR) (XFin gR : XR) = (XFin ((gT + gR) / 2)%R : XR)).
  { unfold bias. change (n_div (n_add (XFin gT : XR) (XFin gR : XR)) (n_ofZ 2)) with (xdiv (XFin (gT + gR)%R) (XFin 2) : XR). unfold xdiv. rewrite Req_bool_false by lra. reflexivity. }
  assert (G : forall l j, j < length l -> get (n_nan : XR) (ofR l) j = (XFin (nth j l 0%R) : XR)).
  { intros l j Hj. unfold ofR. rewrite get_map with (d := 0%R) by auto. reflexivity. }
  assert (A : forall j, j < n -> most m (XFin gT : XR) (XFin gR : XR) j = (XFin (nth j th 0 - nth j rl 0 - (gT + gR) / 2)%R : XR)).
  { intros j Hj. unfold most, corrected_max. rewrite EB. cbn [m real_levels tx_hi rx_lo]. rewrite !G by lia. reflexivity. }
  assert (B : forall j, j < n -> least m (XFin gT : XR) (XFin gR : XR) j = (XFin (nth j tl 0 - nth j rh 0 + (gT + gR) / 2)%R : XR)).
  { intros j Hj. unfold least, corrected_min. rewrite EB. cbn [m real_levels tx_lo rx_hi]. rewrite !G by lia. reflexivity. }
  assert (Hs : steps n m) by (unfold steps; cbn [m real_levels tx_lo tx_hi rx_lo rx_hi]; rewrite !ofR_length; auto).
  assert (RC : recorded (XFin gT : XR) (XFin gR : XR) w i m) by (split; [rewrite A by auto; reflexivity|]; intros j Hj; rewrite B by lia; reflexivity).
  destruct (att_entry XRsem _ _ _ _ _ _ _ Hs E Wi Hi RC) as (v & V & Gv). destruct (min_of XRsem _ _ _ _ _ _ RC Wi V) as [(k & Hk & Ek) M].
  exists k. split; [auto|]. split.
  - intros j Hj. specialize (M j Hj). rewrite Ek, !B in M by lia.
    change (Rle_bool (nth k tl 0 - nth k rh 0 + (gT + gR) / 2)%R (nth j tl 0 - nth j rh 0 + (gT + gR) / 2)%R = true) in M.
    destruct (Rle_bool_spec (nth k tl 0 - nth k rh 0 + (gT + gR) / 2)%R (nth j tl 0 - nth j rh 0 + (gT + gR) / 2)%R) as [H|]; [|discriminate]. unfold excess. lra.
  - rewrite Gv, Ek, A, B by lia. unfold positive_part.
    set (d := (nth i th 0 - nth i rl 0 - (gT + gR) / 2 - (nth k tl 0 - nth k rh 0 + (gT + gR) / 2))%R).
    change (n_sub (XFin (nth i th 0 - nth i rl 0 - (gT + gR) / 2)%R : XR) (XFin (nth k tl 0 - nth k rh 0 + (gT + gR) / 2)%R : XR)) with (XFin d : XR).
    change (n_ltb (XFin d : XR) (n_ofZ 0)) with (Rlt_bool d 0). replace (excess tl th rl rh i k - (gT + gR))%R with d by (unfold d, excess; lra).
    destruct (Rlt_bool_spec d 0); [rewrite Rmax_left by lra|rewrite Rmax_right by lra]; reflexivity.
Qed.
