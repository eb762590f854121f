(** * The wet antenna methods in floating point *)
From Coq Require Import List ZArith Bool Lia Reals Lra.
From Flocq Require Import Core.
From Verif Require Import Base Num NumF64 NumList NpOps Libm Libm64 KR_spec KR_proofs Schleiss_model Schleiss_spec Schleiss_proofs
  Chain_spec Chain_proofs Pastorek_model WaaFloat_spec.
Import ListNotations.
Local Open Scope nat_scope.

Section P.
Context {O : numops} (S : numsem O).

Lemma nn_div_pos v w : nn v -> xltb (XFin 0) w = true -> nn (xdiv v w).
Proof using.
  intros Hv Hw. destruct w as [| |r|]; try discriminate.
  - apply nn_div; auto. apply xltb_fin. exact Hw.
  - destruct Hv as [->|Hv]; [left; reflexivity|]. destruct v as [| |a|]; try discriminate; [right|left; reflexivity]. cbn [xdiv]. apply xleb_fin. lra.
Qed.
Lemma add_ge (x y : O) : nn (val S y) -> n_isnan (n_add x y) = false -> n_leb x (n_add x y) = true.
Proof using.
  rewrite (val_isnan _ S), (val_leb _ S), (val_add _ S). intros Hy N.
  assert (Q : xisnan (xadd (val S x) (val S y)) = false).
  { destruct (xadd (val S x) (val S y)) eqn:E; auto. pose proof (rnd_nan _ S XNaN) as R. rewrite R in N. discriminate. }
  rewrite <- (rnd_val _ S x) at 1. apply (rnd_mono _ S). destruct Hy as [E|Hy].
  - rewrite E in Q. destruct (val S x); discriminate.
  - destruct (val S x) as [| |a|], (val S y) as [| |b|]; try discriminate; auto. apply xleb_fin in Hy. cbn [xadd]. apply xleb_fin. lra.
Qed.
(** the relaxation never lowers a value that is at most [m] *)
Lemma relaxed_rises (m dt tau prev : O) : nonneg dt -> positive tau -> n_leb prev m = true ->
  n_isnan (relaxed prev m dt tau) = false -> n_leb prev (relaxed prev m dt tau) = true.
Proof using S.
  intros Hdt Ht Hp N. unfold relaxed in *. apply add_ge; auto. apply (val_positive S) in Ht. apply (val_nonneg S) in Hdt. rewrite (val_leb _ S) in Hp.
  rewrite (val_div _ S) by (intros E; rewrite E in Ht; apply xltb_fin in Ht; lra). apply nn_rnd. apply nn_div_pos; auto.
  rewrite (val_mul _ S). apply nn_rnd. apply nn_mul; [|right; auto]. rewrite (val_mul _ S). apply nn_rnd. apply nn_mul.
  - rewrite (val_sub _ S). apply nn_rnd. destruct (val S prev) as [| |p|], (val S m) as [| |r|]; try discriminate; try (left; reflexivity); try (right; reflexivity).
    apply xleb_fin in Hp. right. cbn. apply xleb_fin. lra.
  - right. rewrite (val_ofZ _ S) by (simpl; discriminate). apply xleb_fin. lra.
Qed.
Lemma py_min_ge (c a b : O) : n_leb c a = true -> (n_isnan b = false -> n_leb c b = true) -> n_leb c (py_min a b) = true.
Proof using S.
  intros Ha Hb. unfold py_min. destruct (n_ltb b a) eqn:E; auto. apply Hb. destruct (n_isnan b) eqn:N; auto. rewrite (ltb_nan_l S) in E by auto. discriminate.
Qed.
Lemma leb_not_nan (x y : O) : n_leb x y = true -> n_isnan x = false /\ n_isnan y = false.
Proof using S. rewrite !(val_isnan _ S), (val_leb _ S). destruct (val S x), (val S y); try discriminate; auto. Qed.
Lemma schleiss_step (rsl baseline wet : list O) m dt tau waa i :
  length baseline = length rsl -> length wet = length rsl -> nonneg dt -> positive tau ->
  waa_schleiss_2013 rsl baseline wet m dt tau = Ok waa -> 1 <= i < length rsl -> flag_is_one wet i ->
  n_leb (get n_nan waa (i - 1)) m = true -> n_leb (get n_nan waa (i - 1)) (atten rsl baseline i) = true ->
  n_leb (get n_nan waa (i - 1)) (get n_nan waa i) = true /\ n_leb (get n_nan waa i) m = true /\ n_leb (get n_nan waa i) (atten rsl baseline i) = true.
Proof using S.
  intros L1 L2 Hdt Ht E Hi F H1 H2.
  assert (NZ : n_eqb tau (n_ofZ 0) = false).
  { apply (val_positive S) in Ht. rewrite (val_eqb _ S), (val_0 S). destruct (val S tau) as [| |r|]; try discriminate; auto. apply xltb_fin in Ht. cbn. apply Req_bool_false. lra. }
  destruct (schleiss_loop rsl baseline wet m dt tau L1 L2) as (waa' & E' & _ & _ & W); [intros Z; congruence|].
  rewrite E in E'. injection E' as <-. specialize (W i Hi). unfold sch_ok in W. cbv zeta in W. rewrite F in W. rewrite W.
  destruct (leb_not_nan _ _ H1) as [_ Nm]. destruct (leb_not_nan _ _ H2) as [_ NA].
  split; [|split].
  - apply py_min_ge; [apply py_min_ge; auto|]. intros N. apply relaxed_rises; auto.
  - eapply (leb_trans S); [apply (py_min_le_l S); rewrite (py_min_isnan S); auto|]. apply (py_min_le_r S); auto.
  - eapply (leb_trans S); [apply (py_min_le_l S); rewrite (py_min_isnan S); auto|]. apply (py_min_le_l S); auto.
Qed.
Lemma schleiss_event (rsl baseline wet : list O) m dt tau waa s e :
  length baseline = length rsl -> length wet = length rsl -> nonneg dt -> positive tau ->
  waa_schleiss_2013 rsl baseline wet m dt tau = Ok waa -> e < length rsl ->
  (forall j, s < j <= e -> flag_is_one wet j /\ n_leb m (atten rsl baseline j) = true) -> n_leb (get n_nan waa s) m = true ->
  forall i j, s <= i <= j -> j <= e -> n_leb (get n_nan waa i) (get n_nan waa j) = true /\ n_leb (get n_nan waa j) m = true.
Proof using S.
  intros L1 L2 Hdt Ht E He H H0.
  assert (ST : forall k, s + k < e -> n_leb (get n_nan waa (s + k)) m = true -> n_leb (get n_nan waa (s + k)) (get n_nan waa (Datatypes.S (s + k))) = true /\ n_leb (get n_nan waa (Datatypes.S (s + k))) m = true).
  { intros k Hk Hm. destruct (H (Datatypes.S (s + k))) as [F A]; [lia|].
    destruct (schleiss_step rsl baseline wet m dt tau waa (Datatypes.S (s + k)) L1 L2 Hdt Ht E) as (Q1 & Q2 & _); auto; try lia; replace (Datatypes.S (s + k) - 1) with (s + k) in * by lia; auto.
    eapply (leb_trans S); eauto. }
  assert (B : forall k, s + k <= e -> n_leb (get n_nan waa (s + k)) m = true).
  { induction k as [|k IH]; intros Hk; [rewrite Nat.add_0_r; auto|]. replace (s + Datatypes.S k) with (Datatypes.S (s + k)) by lia. apply ST; [lia|]. apply IH. lia. }
  assert (M : forall d k, s + k + d <= e -> n_leb (get n_nan waa (s + k)) (get n_nan waa (s + k + d)) = true).
  { induction d as [|d IH]; intros k Hk.
    - rewrite Nat.add_0_r. apply (leb_refl S). apply (leb_not_nan _ m). apply B. lia.
    - eapply (leb_trans S); [apply (IH k); lia|]. replace (s + k + Datatypes.S d) with (Datatypes.S (s + (k + d))) by lia. replace (s + k + d) with (s + (k + d)) by lia. apply ST; [lia|]. apply B. lia. }
  intros i j Hi Hj. split.
  - specialize (M (j - i) (i - s)). replace (s + (i - s)) with i in M by lia. replace (i + (j - i)) with j in M by lia. apply M. lia.
  - specialize (B (j - s)). replace (s + (j - s)) with j in B by lia. apply B. lia.
Qed.

(** ** Pastorek *)
Lemma one_minus_range (x : O) : n_leb (n_ofZ 0) x = true -> n_leb x (n_ofZ 1) = true ->
  exists r, val S (n_sub one x) = XFin r /\ (0 <= r <= 1)%R.
Proof using S.
  unfold one. rewrite !(val_leb _ S), (val_0 S), (val_ofZ _ S), (val_sub _ S), (val_ofZ _ S) by (simpl; discriminate). intros H0 H1.
  destruct (val S x) as [| |r|]; try discriminate. apply xleb_fin in H0, H1. cbn [xsub xadd xopp].
  assert (Q0 : xleb (XFin 0) (rnd S (XFin (1 + - r))) = true) by (rewrite <- (rnd_0 S); apply (rnd_mono _ S); apply xleb_fin; lra).
  assert (R1 : rnd S (XFin 1) = XFin 1). { pose proof (rnd_val _ S (n_ofZ 1)) as Q. rewrite (val_ofZ _ S) in Q by (simpl; discriminate). exact Q. }
  assert (Q1 : xleb (rnd S (XFin (1 + - r))) (XFin 1) = true) by (rewrite <- R1; apply (rnd_mono _ S); apply xleb_fin; lra).
  destruct (rnd S (XFin (1 + - r))) as [| |q|]; try discriminate. apply xleb_fin in Q0, Q1. exists q. auto.
Qed.
Lemma one_minus_anti (x y : O) : n_leb (n_ofZ 0) x = true -> n_leb x y = true -> n_leb y (n_ofZ 1) = true -> n_leb (n_sub one y) (n_sub one x) = true.
Proof using S.
  unfold one. rewrite !(val_leb _ S), (val_0 S), (val_ofZ _ S), !(val_sub _ S), (val_ofZ _ S) by (simpl; discriminate). intros H0 H1 H2.
  apply (rnd_mono _ S). destruct (val S x) as [| |a|], (val S y) as [| |b|]; try discriminate. apply xleb_fin in H1. cbn [xsub xadd xopp]. apply xleb_fin. lra.
Qed.
Lemma nonneg_finite (x : O) : nonneg x -> finite x -> exists r, val S x = XFin r /\ (0 <= r)%R.
Proof using S.
  intros H F. apply (val_nonneg S) in H. destruct (proj1 (finite_val S x) F) as [r E]. exists r. rewrite E in H. apply xleb_fin in H. auto.
Qed.
Lemma xmul_pinf (r : R) : (0 < r)%R -> xmul (XFin (- r)) XPInf = XNInf.
Proof using. intros H. cbn [xmul xsgn]. rewrite Rcompare_Lt by lra. reflexivity. Qed.
Lemma dterm_anti (d p q : O) : finite d -> positive d -> n_leb (n_ofZ 0) p = true -> n_leb p q = true -> n_leb (n_mul (n_opp d) q) (n_mul (n_opp d) p) = true.
Proof using S.
  intros F Hd Hp Hq. destruct (proj1 (finite_val S d) F) as [r E]. apply (val_positive S) in Hd. rewrite E in Hd. apply xltb_fin in Hd.
  rewrite !(val_leb _ S), !(val_mul _ S), !(val_opp _ S), (val_0 S), E in *. apply (rnd_mono _ S). cbn [xopp].
  destruct (val S p) as [| |a|], (val S q) as [| |b|]; try discriminate; rewrite ?xmul_pinf by auto; auto.
  apply xleb_fin in Hq. cbn [xmul]. apply xleb_fin. nra.
Qed.
Lemma dterm_neg (d p : O) : finite d -> positive d -> n_leb (n_ofZ 0) p = true -> n_leb (n_mul (n_opp d) p) (n_ofZ 0) = true.
Proof using S.
  intros F Hd Hp. destruct (proj1 (finite_val S d) F) as [r E]. apply (val_positive S) in Hd. rewrite E in Hd. apply xltb_fin in Hd.
  rewrite !(val_leb _ S), !(val_mul _ S), !(val_opp _ S), (val_0 S), E in *. rewrite <- (rnd_0 S). apply (rnd_mono _ S). cbn [xopp].
  destruct (val S p) as [| |a|]; try discriminate; rewrite ?xmul_pinf by auto; auto.
  apply xleb_fin in Hp. cbn [xmul]. apply xleb_fin. nra.
Qed.
Lemma scaled_range (A x : O) r : nonneg A -> finite A -> val S x = XFin r -> (0 <= r <= 1)%R -> n_leb (n_ofZ 0) (n_mul A x) = true /\ n_leb (n_mul A x) A = true.
Proof using S.
  intros H F E Hr. destruct (nonneg_finite A H F) as (a & EA & Ha). rewrite !(val_leb _ S), (val_mul _ S), (val_0 S), E. split; [rewrite EA; cbn [xmul]|].
  - rewrite <- (rnd_0 S) at 1. apply (rnd_mono _ S). apply xleb_fin. nra.
  - rewrite <- (rnd_val _ S A) at 2. apply (rnd_mono _ S). rewrite EA. cbn [xmul]. apply xleb_fin. nra.
Qed.
Lemma scaled_mono (A x y : O) r q : nonneg A -> finite A -> val S x = XFin r -> val S y = XFin q -> n_leb x y = true -> n_leb (n_mul A x) (n_mul A y) = true.
Proof using S.
  intros H F E E' L. destruct (nonneg_finite A H F) as (a & EA & Ha). rewrite !(val_leb _ S), !(val_mul _ S), EA, E, E' in *. cbn [xmul]. apply xleb_fin in L.
  apply (rnd_mono _ S). apply xleb_fin. nra.
Qed.

Lemma pastorek_float (L : libm O) (Rs : list O) (A_max zeta d : O) :
  pow_sane L -> pow_mono L -> exp_sane L -> nonneg A_max -> finite A_max -> nonneg zeta -> positive d -> finite d -> (forall r, In r Rs -> nonneg r) ->
  exists w, waa_pastorek_2021 L (SArray Rs) A_max zeta d = Ok w /\ length w = length Rs /\
  (forall i, i < length Rs -> n_leb (n_ofZ 0) (get n_nan w i) = true /\ n_leb (get n_nan w i) A_max = true) /\
  (forall i j, i < length Rs -> j < length Rs -> n_leb (get n_nan Rs i) (get n_nan Rs j) = true -> n_leb (get n_nan w i) (get n_nan w j) = true).
Proof using S.
  intros PS PM [EM ER] HA FA Hz Hd Fd HR.
  set (f := fun r : O => n_mul A_max (n_sub one (m_exp L (n_mul (n_opp d) (m_pow L r zeta))))).
  set (w := mask_fill (map (fun r => n_eqb r zero) Rs) zero (map f Rs)).
  assert (LW : length w = length Rs) by (unfold w; rewrite mask_fill_length, !map_length; auto; rewrite !map_length; auto).
  assert (G : forall i, i < length Rs -> get n_nan w i = if n_eqb (get n_nan Rs i) zero then zero else f (get n_nan Rs i)).
  { intros i Hi. unfold w. rewrite mask_fill_get by (rewrite !map_length; auto).
    rewrite (get_map (fun r : O => n_eqb r zero) n_nan) by auto. rewrite (get_map f n_nan) by auto. reflexivity. }
  assert (ROW : forall r, nonneg r -> exists q, val S (n_sub one (m_exp L (n_mul (n_opp d) (m_pow L r zeta)))) = XFin q /\ (0 <= q <= 1)%R).
  { intros r Hr. destruct (ER (n_mul (n_opp d) (m_pow L r zeta))) as [E0 E1]; [apply dterm_neg; auto; apply PS; auto|]. apply one_minus_range; auto. }
  assert (RNG : forall r, nonneg r -> n_leb (n_ofZ 0) (f r) = true /\ n_leb (f r) A_max = true).
  { intros r Hr. destruct (ROW r Hr) as (q & E & Hq). unfold f. eapply scaled_range; eauto. }
  assert (NN : forall i, i < length Rs -> nonneg (get n_nan Rs i)) by (intros i Hi; apply HR; apply get_In; auto).
  assert (Z0 : n_leb (n_ofZ 0) (zero : O) = true) by (unfold zero; apply (leb_refl S); apply (isnan_ofZ S); simpl; discriminate).
  exists w. split; [reflexivity|]. split; [exact LW|]. split.
  - intros i Hi. rewrite G by auto. destruct (n_eqb (get n_nan Rs i) zero); [split; [exact Z0|exact HA]|]. apply RNG. auto.
  - intros i j Hi Hj Hij. rewrite !G by auto. destruct (n_eqb (get n_nan Rs i) zero) eqn:Zi.
    + destruct (n_eqb (get n_nan Rs j) zero); [exact Z0|]. apply RNG. auto.
    + destruct (n_eqb (get n_nan Rs j) zero) eqn:Zj.
      * exfalso. pose proof (NN i Hi) as Ni. unfold zero in Zi, Zj. apply (val_nonneg S) in Ni. rewrite (val_leb _ S) in Hij. rewrite (val_eqb _ S), (val_0 S) in Zi, Zj.
        destruct (val S (get n_nan Rs i)) as [| |a|], (val S (get n_nan Rs j)) as [| |b|]; try discriminate. apply xleb_fin in Ni, Hij. cbn in Zi, Zj.
        destruct (Req_bool_spec b 0); try discriminate. destruct (Req_bool_spec a 0); try discriminate. lra.
      * destruct (ROW _ (NN i Hi)) as (q & E & Hq). destruct (ROW _ (NN j Hj)) as (q' & E' & Hq'). unfold f. eapply scaled_mono; eauto.
        assert (Pi := PS _ _ (NN i Hi) Hz). assert (Pj := PS _ _ (NN j Hj) Hz). assert (Pm := PM _ _ _ (NN i Hi) Hij Hz).
        apply one_minus_anti.
        -- apply ER. apply dterm_neg; auto.
        -- apply EM. apply dterm_anti; auto.
        -- apply ER. apply dterm_neg; auto.
Qed.
End P.

Lemma xexp_mono a b : xleb a b = true -> xleb (xexp a) (xexp b) = true.
Proof.
  destruct a as [| |a|], b as [| |b|]; try discriminate; intros H; cbn [xexp]; try reflexivity; try (apply xleb_fin; try (pose proof (exp_pos b)); try lra).
  apply xleb_fin in H. destruct (Req_dec a b) as [->|N]; [lra|]. left. apply exp_increasing. lra.
Qed.
Lemma F64cr_exp_sane : exp_sane F64cr.
Proof.
  split.
  - intros x y H. change (BinarySingleNaN.Bleb x y = true) in H. change (BinarySingleNaN.Bleb (m_exp F64cr x) (m_exp F64cr y) = true). rewrite f_val_leb in *. cbn [m_exp F64cr]. unfold cr1. rewrite !f_of_xr_val. apply f_rnd_mono. apply xexp_mono; auto.
  - intros x H. rewrite F64_leb0. rewrite (val_leb _ F64sem) in H |- *. rewrite (val_0 F64sem) in H. rewrite (val_ofZ _ F64sem) by (simpl; discriminate).
    change (val F64sem x) with (f_val x) in *. change (val F64sem (m_exp F64cr x)) with (f_val (m_exp F64cr x)). cbn [m_exp F64cr]. unfold cr1. rewrite f_of_xr_val. split.
    + replace (XFin 0) with (f_rnd (XFin 0)) by (rewrite <- (val_0 F64sem); apply f_rnd_val). apply f_rnd_mono.
      destruct (f_val x); try discriminate; cbn [xexp]; apply xleb_fin; try lra. left. apply exp_pos.
    + replace (XFin 1) with (f_rnd (XFin 1)). { apply f_rnd_mono. pose proof (xexp_mono _ _ H) as Q. cbn [xexp] in Q. rewrite exp_0 in Q. exact Q. }
      pose proof (f_rnd_val (n_ofZ 1 : F64)) as Q. change (f_val (n_ofZ 1 : F64)) with (val F64sem (n_ofZ 1 : F64)) in Q. rewrite (val_ofZ _ F64sem) in Q by (simpl; discriminate). exact Q.
Qed.
