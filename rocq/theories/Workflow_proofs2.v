(** * From raw levels to rain rate: missing values, later data, straight lines *)
From Coq Require Import List ZArith Bool Reals Lia Lra.
From Flocq Require Import Core BinarySingleNaN.
From Verif Require Import Base Num NumF64 NumList Libm Baseline_model Baseline_spec Baseline_proofs Schleiss_model Schleiss_spec Schleiss_proofs
  KR_model KR_spec KR_proofs Chain_model Chain_spec Chain_proofs BaselineFloat_spec BaselineFloat_proofs LinearFloat_proofs Workflow_model Workflow_spec Workflow_proofs.
Import ListNotations.
Local Open Scope nat_scope.
Local Notation length := List.length.

Section Gen.
Context {O : numops} (S : numsem O) (L : libm O).
Variable cubic : list O -> list O -> O -> O.
Variable std : list O -> O.
Notation "l .[ i ]" := (get (n_nan : O) l i) (at level 2, left associativity, format "l .[ i ]").
Notation workflow := (workflow L cubic std).
Notation wet_flags := (wet_flags std).

(** ** a rain rate is missing only where the loss is *)
Section Missing.
Variable P : O -> Prop.
Variable n : nat.
Hypothesis PM : forall l, length l = n -> (forall v, In v l -> P v) -> P (n_mean l).
Hypothesis PS : forall u v, P u -> P v -> finite (n_sub u v).
Lemma baseline_good w th (l b : list O) : 1 <= n <= w / 2 ->
  baseline_constant l (wet_flags w th l) n = Ok b -> (forall t, t < length l -> n_isnan l.[t] = false -> P l.[t]) ->
  forall t, t < length l -> n_isnan l.[t] = false -> P b.[t].
Proof using S PM.
  intros Hn EB HP. destruct (constant_rec _ _ _ _ EB) as [LB HB].
  intros t. induction t as [t IH] using lt_wf_ind. intros Ht HN. destruct (HB t Ht) as [B1 B2]. unfold nget in *.
  destruct (le_lt_dec n t) as [Ge|Lt]; [|rewrite B1 by auto; auto]. rewrite B2 by auto.
  rewrite !get_map with (d := n_nan) by (rewrite wf_length; lia).
  unfold n_truthy, zero. destruct (n_eqb (wet_flags w th l).[t] (n_ofZ 0)) eqn:F; cbn [negb]; [auto|].
  pose proof (wf_wet S std w th l t Ht F) as W.
  assert (HW : w / 2 <= w) by (apply Nat.div_le_upper_bound; lia).
  assert (HV : forall j, t - n <= j < t -> P b.[j]).
  { intros j Hj. apply IH; [lia|lia|]. apply W. split; lia. }
  destruct (negb (n_eqb (wet_flags w th l).[t - 1] (n_ofZ 0))); [apply HV; lia|].
  apply PM; [rewrite slice_length by lia; lia|]. intros v Hv. apply In_get with (d := n_nan) in Hv as (j & Hj & <-).
  rewrite slice_length in Hj by lia. rewrite get_slice by auto. apply HV. lia.
Qed.

Lemma workflow_missing_gen (sane : pow_sane L) p (x tsl rsl : list O) m dt tau (k : kr_args O) R :
  plain_coefficients k -> 1 <= n <= rp_window p / 2 -> n_eqb tau (n_ofZ 0) = false ->
  length rsl = length tsl -> (forall t, t < length tsl -> n_isnan (prepared p x tsl rsl).[t] = false -> P (prepared p x tsl rsl).[t]) ->
  workflow p x tsl rsl n m dt tau k = Ok R ->
  forall t, t < length tsl -> (missing R.[t] <-> missing (prepared p x tsl rsl).[t]).
Proof using S PM PS.
  intros (a & b & E1 & E2 & E3 & E4 & H1 & H2 & Hb & He) Hn Hta HL HP ER t Ht.
  set (l := prepared p x tsl rsl) in *. set (f := wet_flags (rp_window p) (rp_threshold p) l).
  assert (LL : length l = length tsl) by (apply loss_length; auto).
  assert (LF : length f = length l) by apply wf_length.
  destruct (chain_run S L cubic true l f n m dt tau k a b E1 E2 E3 E4 Hb ltac:(lia) LF ltac:(congruence))
    as (bl & wa & R' & EB & LB & EW & LW & W0 & _ & ER' & LR & HR).
  change (workflow p x tsl rsl n m dt tau k) with (chain L cubic true l f n m dt tau k) in ER. rewrite ER in ER'. injection ER' as <-.
  assert (Ht' : t < length l) by lia. rewrite (HR t Ht').
  destruct (rt_range S L sane a b k (cl true (n_sub (atten l bl t) wa.[t])) H1 H2 Hb) as [RN _]. rewrite RN. unfold missing. rewrite (cl_isnan S).
  destruct (n_isnan l.[t]) eqn:N.
  - split; auto. intros _. apply (sub_nan_l S), (sub_nan_l S). exact N.
  - split; [|discriminate]. intros K. exfalso.
    assert (FA : finite (atten l bl t)).
    { unfold atten. apply PS; [apply HP; auto|]. eapply (baseline_good _ _ l bl); eauto. intros; apply HP; auto; lia. }
    assert (NW : n_isnan wa.[t] = false).
    { destruct (Nat.eq_dec t 0) as [->|NE]; [rewrite W0 by lia; apply (isnan_ofZ S); simpl; lia|].
      destruct (n_isnan wa.[t]) eqn:Q; auto. apply (schleiss_nan S l bl f m dt tau wa LB LF EW) in Q; [|lia].
      destruct FA as [FA _]. unfold atten in FA. congruence. }
    rewrite (val_isnan _ S), (val_sub _ S), (rnd_nan _ S) in K. destruct FA as [F1 F2].
    rewrite (val_isnan _ S) in F1, NW. rewrite (val_isinf _ S) in F2.
    destruct (val S (atten l bl t)); try discriminate. destruct (val S wa.[t]); discriminate.
Qed.
End Missing.

(** ** later data *)
Lemma loss_later p (x1 tsl1 rsl1 x2 tsl2 rsl2 : list O) s :
  length rsl1 = length tsl1 -> length rsl2 = length tsl2 -> s <= length tsl1 -> s <= length tsl2 ->
  (forall t, t < s -> x1.[t] = x2.[t] /\ tsl1.[t] = tsl2.[t] /\ rsl1.[t] = rsl2.[t]) ->
  1 <= s -> n_isinf tsl1.[s - 1] = false -> n_isinf rsl1.[s - 1] = false ->
  measured (rp_fill_t p) (rp_fill_r p) tsl1 rsl1 (s - 1) ->
  forall t, t < s -> (prepared p x1 tsl1 rsl1).[t] = (prepared p x2 tsl2 rsl2).[t].
Proof using S.
  intros L1 L2 S1 S2 H Hs I1 I2 M t Ht. unfold prepared.
  set (l1 := total_loss (rp_fill_t p) (rp_fill_r p) tsl1 rsl1). set (l2 := total_loss (rp_fill_t p) (rp_fill_r p) tsl2 rsl2).
  assert (LL1 : length l1 = length tsl1) by (apply tl_length; auto). assert (LL2 : length l2 = length tsl2) by (apply tl_length; auto).
  assert (E : forall j, j < s -> l1.[j] = l2.[j]).
  { intros j Hj. unfold l1, l2. rewrite !tl_get by lia. destruct (H j Hj) as (_ & -> & ->). reflexivity. }
  assert (V : n_isnan l1.[s - 1] = false) by (apply (tl_valid S); auto; lia).
  rewrite !ina_get by lia. unfold nget. rewrite (E t Ht). destruct (n_isnan l2.[t]) eqn:N; auto.
  assert (NS : t <> s - 1) by (intros ->; rewrite E in V by lia; congruence).
  assert (EL : last_valid_before l1 t = last_valid_before l2 t).
  { unfold last_valid_before. destruct (find (fun k => negb (n_isnan (nget l1 k))) (rev (seq 0 t))) as [i|] eqn:F.
    - apply find_before in F as (A & B & C). symmetry. unfold nget in *.
      apply find_before_ex; [exact A|rewrite <- E by lia; exact B|intros q Hq; rewrite <- E by lia; apply C; lia].
    - symmetry. destruct (find (fun k => negb (n_isnan (nget l2 k))) (rev (seq 0 t))) as [i|] eqn:G; auto.
      apply find_before in G as (A & B & C). apply find_none with (x := i) in F; [unfold nget in *; rewrite E in F by lia; congruence|].
      apply -> in_rev. apply in_seq. lia. }
  assert (EF : exists j, first_valid_after l1 t = Some j /\ first_valid_after l2 t = Some j /\ j < s).
  { unfold first_valid_after. destruct (find (fun k => negb (n_isnan (nget l1 k))) (seq (t + 1) (length l1 - (t + 1)))) as [j|] eqn:F.
    - exists j. split; auto. apply find_after in F as (A & B & C). unfold nget in *.
      assert (j < s).
      { destruct (le_lt_dec s j); auto. specialize (C (s - 1) ltac:(lia)). rewrite V in C. discriminate. }
      split; auto. apply find_after_ex; [lia|rewrite <- E by lia; exact B|intros q Hq; rewrite <- E by lia; apply C; lia].
    - exfalso. apply find_none with (x := s - 1) in F; [unfold nget in F; rewrite V in F; discriminate|]. apply in_seq. lia. }
  rewrite EL. destruct EF as (j & -> & -> & Hj). destruct (last_valid_before l2 t) as [i|] eqn:F; auto.
  apply find_before in F as (A & _). rewrite !(E i), !(E j) by lia.
  destruct (H i ltac:(lia)) as [-> _]. destruct (H j ltac:(lia)) as [-> _]. destruct (H t ltac:(lia)) as [-> _]. reflexivity.
Qed.

Lemma workflow_later p (x1 tsl1 rsl1 x2 tsl2 rsl2 : list O) n m dt tau (k : kr_args O) R1 R2 s t :
  plain_coefficients k ->
  length rsl1 = length tsl1 -> length rsl2 = length tsl2 -> s <= length tsl1 -> s <= length tsl2 ->
  (forall t, t < s -> x1.[t] = x2.[t] /\ tsl1.[t] = tsl2.[t] /\ rsl1.[t] = rsl2.[t]) ->
  n_isinf tsl1.[s - 1] = false -> n_isinf rsl1.[s - 1] = false ->
  measured (rp_fill_t p) (rp_fill_r p) tsl1 rsl1 (s - 1) ->
  workflow p x1 tsl1 rsl1 n m dt tau k = Ok R1 -> workflow p x2 tsl2 rsl2 n m dt tau k = Ok R2 ->
  t < s -> t + rp_window p <= s + rp_window p / 2 -> R1.[t] = R2.[t].
Proof using S.
  intros Hk L1 L2 S1 S2 H I1 I2 M E1 E2 Ht Hw.
  pose proof (loss_later p x1 tsl1 rsl1 x2 tsl2 rsl2 s L1 L2 S1 S2 H ltac:(lia) I1 I2 M) as E.
  unfold Workflow_model.workflow in E1, E2.
  assert (LL1 := loss_length p x1 tsl1 rsl1 L1). assert (LL2 := loss_length p x2 tsl2 rsl2 L2).
  apply (chain_causal S L cubic _ _ _ _ _ _ _ _ _ _ _ _ t Hk E1 E2); try (rewrite ?wf_length; lia); intros j Hj.
  - apply E. lia.
  - apply wf_same; try lia. intros i [A B]. apply E. lia.
Qed.
End Gen.

(** ** binary64: moderate levels *)
Local Notation V := f_val.
Lemma format_grid k : (0 <= k < 2 ^ 53)%Z -> f_rnd (XFin (IZR k * bpow radix2 53)) = XFin (IZR k * bpow radix2 53).
Proof.
  intros Hk. apply rnd_exact.
  - apply generic_format_FLT. exists (Float radix2 k 53); cbn; [reflexivity|lia|unfold SpecFloat.emin; lia].
  - rewrite Rabs_pos_eq by (apply Rmult_le_pos; [apply IZR_le; lia|apply bpow_ge_0]).
    apply Rlt_trans with (bpow radix2 53 * bpow radix2 53)%R.
    + apply Rmult_lt_compat_r; [apply bpow_gt_0|]. change (bpow radix2 53) with (IZR (2 ^ 53)). apply IZR_lt; lia.
    + rewrite <- bpow_plus. apply bpow_lt. lia.
Qed.
Lemma rnd_between r B : f_rnd (XFin B) = XFin B -> f_rnd (XFin (- B)) = XFin (- B) -> (Rabs r <= B)%R ->
  exists q, f_rnd (XFin r) = XFin q /\ (Rabs q <= B)%R.
Proof.
  intros E1 E2 H. apply Rabs_le_inv in H as [A C].
  assert (K1 : xleb (XFin (- B)) (f_rnd (XFin r)) = true) by (rewrite <- E2; apply f_rnd_mono; cbn; apply Rle_bool_true; auto).
  assert (K2 : xleb (f_rnd (XFin r)) (XFin B) = true) by (rewrite <- E1; apply f_rnd_mono; cbn; apply Rle_bool_true; auto).
  destruct (f_rnd (XFin r)) as [| |q|]; try discriminate. exists q. split; auto. cbn in K1, K2.
  destruct (Rle_bool_spec (- B) q), (Rle_bool_spec q B); try discriminate. apply Rabs_le; auto.
Qed.
Lemma rnd_opp r : f_rnd (XFin r) = XFin r -> f_rnd (XFin (- r)) = XFin (- r).
Proof.
  unfold f_rnd, rnd64. intros H. assert (round radix2 fexp64 ZnearestE (- r) = - round radix2 fexp64 ZnearestE r)%R as E by apply round_NE_opp.
  rewrite E, Rabs_Ropp. destruct (Rlt_bool (Rabs (round radix2 fexp64 ZnearestE r)) (bpow radix2 1024)); [|destruct (Rlt_bool _ 0); discriminate].
  injection H as H. rewrite H. reflexivity.
Qed.
Lemma moderate_sum (l : list F64) : forall (s : F64) r k, V s = XFin r -> (Rabs r <= IZR k * bpow radix2 53)%R -> (0 <= k)%Z ->
  (k + Z.of_nat (length l) < 2 ^ 53)%Z -> (forall v, In v l -> moderate v) ->
  exists q, V (fold_left n_add l s) = XFin q /\ (Rabs q <= IZR (k + Z.of_nat (length l)) * bpow radix2 53)%R.
Proof.
  induction l as [|v l IH]; intros s r k E B K0 K H.
  - exists r. cbn [fold_left length Z.of_nat]. rewrite Z.add_0_r. auto.
  - cbn [fold_left]. destruct (moderate_val v (H v (or_introl eq_refl))) as (a & A & Ba & _).
    assert (HB : (Rabs (r + a) <= IZR (k + 1) * bpow radix2 53)%R).
    { eapply Rle_trans; [apply Rabs_triang|]. rewrite plus_IZR. lra. }
    assert (KK : (0 <= k + 1 < 2 ^ 53)%Z) by (cbn [length] in K; lia).
    destruct (rnd_between (r + a) (IZR (k + 1) * bpow radix2 53) (format_grid _ KK) (rnd_opp _ (format_grid _ KK)) HB) as (q & Q1 & Q2).
    destruct (IH (n_add s v) q (k + 1)%Z) as (q' & E' & B'); [|exact Q2|lia|cbn [length] in K; lia|intros u Hu; apply H; right; auto|].
    + change (n_add s v) with (f_add s v). rewrite f_val_add, E, A. exact Q1.
    + exists q'. split; [exact E'|]. replace (k + Z.of_nat (length (v :: l)))%Z with (k + 1 + Z.of_nat (length l))%Z by (cbn [length]; lia). exact B'.
Qed.
Lemma val_moderate (x : F64) r : V x = XFin r -> (Rabs r <= bpow radix2 53)%R -> moderate x.
Proof.
  intros E H. apply Rabs_le_inv in H. unfold moderate. rewrite !(val_leb _ F64sem), !(val_ofZ _ F64sem) by (cbn; lia).
  change (val F64sem x) with (V x). rewrite E. change (bpow radix2 53) with (IZR (2 ^ 53)) in H. cbn [xleb]. rewrite !Rle_bool_true; [auto|lra|].
  rewrite opp_IZR. lra.
Qed.
Lemma moderate_mean n (l : list F64) : 1 <= n -> (Z.of_nat n < 2 ^ 53)%Z -> length l = n -> (forall v, In v l -> moderate v) -> moderate (n_mean l).
Proof.
  intros Hn Hb HL H. unfold n_mean, n_sum.
  destruct (moderate_sum l zero 0%R 0%Z) as (q & E & B); [apply (val_0 F64sem)| |lia|lia|exact H|].
  - rewrite Rabs_R0. lra.
  - rewrite Z.add_0_l, HL in B. rewrite HL.
    assert (N0 : (0 < IZR (Z.of_nat n))%R) by (apply IZR_lt; lia).
    assert (VN : V (n_ofZ (Z.of_nat n) : F64) = XFin (IZR (Z.of_nat n))) by (apply (val_ofZ _ F64sem); lia).
    assert (HB : (Rabs (q / IZR (Z.of_nat n)) <= IZR 1 * bpow radix2 53)%R).
    { unfold Rdiv. rewrite Rabs_mult, Rabs_inv, (Rabs_pos_eq (IZR (Z.of_nat n))) by lra.
      apply Rmult_le_reg_r with (IZR (Z.of_nat n)); auto. rewrite Rmult_assoc, Rinv_l by lra. rewrite Rmult_1_r. lra. }
    destruct (rnd_between _ _ (format_grid 1 ltac:(lia)) (rnd_opp _ (format_grid 1 ltac:(lia))) HB) as (u & U1 & U2). rewrite Rmult_1_l in U2.
    apply (val_moderate _ u); auto.
    assert (D : val F64sem (n_div (fold_left n_add l zero) (n_ofZ (Z.of_nat n))) = XFin u); [|exact D].
    rewrite (val_div _ F64sem) by (change (val F64sem) with V; rewrite VN; intros K; injection K; lra).
    change (val F64sem) with V. rewrite E, VN. unfold xdiv. rewrite Req_bool_false by lra. exact U1.
Qed.
Lemma moderate_sub (x y : F64) : moderate x -> moderate y -> finite (n_sub x y).
Proof.
  intros H1 H2. destruct (moderate_val x H1) as (a & A & Ba & _). destruct (moderate_val y H2) as (b & B & Bb & _).
  assert (HB : (Rabs (a - b) <= IZR 2 * bpow radix2 53)%R).
  { unfold Rminus. eapply Rle_trans; [apply Rabs_triang|]. rewrite Rabs_Ropp. lra. }
  destruct (rnd_between _ _ (format_grid 2 ltac:(lia)) (rnd_opp _ (format_grid 2 ltac:(lia))) HB) as (u & U1 & _).
  assert (D : val F64sem (n_sub x y) = XFin u).
  { rewrite (val_sub _ F64sem). change (val F64sem) with V. rewrite A, B. exact U1. }
  unfold finite. rewrite (val_isnan _ F64sem), (val_isinf _ F64sem), D. auto.
Qed.

Lemma workflow_missing64 (L : libm F64) cubic std (p : raw_par F64) (x tsl rsl : list F64) n m dt tau (k : kr_args F64) R :
  pow_sane L -> plain_coefficients k -> 1 <= n <= rp_window p / 2 -> (Z.of_nat n < 2 ^ 53)%Z -> n_eqb tau (n_ofZ 0) = false ->
  length rsl = length tsl ->
  (forall t, t < length tsl -> n_isnan (get n_nan (prepared p x tsl rsl) t) = false -> moderate (get n_nan (prepared p x tsl rsl) t)) ->
  workflow L cubic std p x tsl rsl n m dt tau k = Ok R ->
  forall t, t < length tsl -> (missing (get n_nan R t) <-> missing (get n_nan (prepared p x tsl rsl) t)).
Proof.
  intros sane Hk Hn Hb Hta HL HP ER. apply (workflow_missing_gen F64sem L cubic std moderate n) with (m := m) (dt := dt) (tau := tau) (k := k); auto.
  - intros l E H. apply (moderate_mean n); auto; lia.
  - apply moderate_sub.
Qed.

(** ** exact arithmetic: filled values lie on the straight line *)
Lemma on_line a b r0 r1 r : (r0 < r < r1)%R ->
  ((b - a) / (r1 - r0) * (r - r0) + a = a + (b - a) * ((r - r0) / (r1 - r0)))%R /\
  (Rmin a b <= a + (b - a) * ((r - r0) / (r1 - r0)) <= Rmax a b)%R.
Proof.
  intros H. split; [field; lra|]. set (u := ((r - r0) / (r1 - r0))%R).
  assert (U : (0 <= u <= 1)%R).
  { unfold u. split; [apply Rmult_le_pos; [lra|left; apply Rinv_0_lt_compat; lra]|].
    apply Rmult_le_reg_r with (r1 - r0)%R; [lra|]. unfold Rdiv. rewrite Rmult_assoc, Rinv_l by lra. lra. }
  clearbody u. clear - U. unfold Rmin, Rmax. destruct (Rle_dec a b); nra.
Qed.
Lemma loss_line (p : raw_par XR) (x tsl rsl : list XR) i t j a b r0 r r1 :
  length rsl = length tsl -> (forall t, t < length tsl -> n_isinf (get n_nan tsl t) = false /\ n_isinf (get n_nan rsl t) = false) ->
  in_gap (measured (rp_fill_t p) (rp_fill_r p) tsl rsl) (length tsl) i t j -> short x (rp_max_gap p) i j ->
  get n_nan x i = XFin r0 -> get n_nan x t = XFin r -> get n_nan x j = XFin r1 -> (r0 < r < r1)%R ->
  n_sub (get n_nan tsl i) (get n_nan rsl i) = XFin a -> n_sub (get n_nan tsl j) (get n_nan rsl j) = XFin b ->
  exists v, get n_nan (prepared p x tsl rsl) t = XFin v /\
    v = (a + (b - a) * ((r - r0) / (r1 - r0)))%R /\ (Rmin a b <= v <= Rmax a b)%R.
Proof.
  intros HL HI G H X0 Xt X1 Hr A B. pose proof G as (G1 & G2 & G3 & G4 & _).
  pose proof (loss_measured XRsem p x tsl rsl HL HI i ltac:(lia) G3) as E0. pose proof (loss_measured XRsem p x tsl rsl HL HI j ltac:(lia) G4) as E1.
  unfold prepared in *. apply (gap_meas XRsem p tsl rsl HL HI) in G. rewrite (ina_gap _ _ _ i t j G H).
  rewrite ina_valid in E0, E1 by (rewrite ?tl_length; auto; try lia; apply G). rewrite E0, E1.
  pose proof (on_line a b r0 r1 r Hr) as [F1 F2].
  exists (a + (b - a) * ((r - r0) / (r1 - r0)))%R. split; [|split; [reflexivity|exact F2]].
  rewrite <- F1. transitivity (xadd (xmul (xdiv (xsub (XFin b) (XFin a)) (xsub (XFin r1) (XFin r0))) (xsub (XFin r) (XFin r0))) (XFin a)).
  - change (n_add (n_mul (n_div (n_sub (n_sub (get n_nan tsl j) (get n_nan rsl j)) (n_sub (get n_nan tsl i) (get n_nan rsl i))) (n_sub (get n_nan x j) (get n_nan x i)))
      (n_sub (get n_nan x t) (get n_nan x i))) (n_sub (get n_nan tsl i) (get n_nan rsl i)) =
      n_add (n_mul (n_div (n_sub (XFin b : XR) (XFin a : XR)) (n_sub (XFin r1 : XR) (XFin r0 : XR))) (n_sub (XFin r : XR) (XFin r0 : XR))) (XFin a : XR)).
    rewrite X0, X1, Xt, A, B. reflexivity.
  - change (xsub (XFin b) (XFin a)) with (XFin (b - a)). change (xsub (XFin r1) (XFin r0)) with (XFin (r1 - r0)). change (xsub (XFin r) (XFin r0)) with (XFin (r - r0)).
    unfold xdiv. rewrite Req_bool_false by lra. reflexivity.
Qed.
