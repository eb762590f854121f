(** * Proofs about rounding in baseline_constant *)
From Coq Require Import List ZArith Bool Reals Lia Lra.
From Flocq Require Import Core BinarySingleNaN.
From Verif Require Import Base Num NumF64 NumList Baseline_model Baseline_spec Baseline_proofs Baseline_proofs2 Grid64_proofs.
Import ListNotations.
Local Open Scope nat_scope.

Section Any.
Context {O : numops} (S : numsem O).
(** in order, unless one of them is NaN *)
Definition weakly (x y : O) : Prop := n_leb x y = true \/ n_isnan x = true \/ n_isnan y = true.
Definition xweakly (x y : xr) : Prop := xleb x y = true \/ xisnan x = true \/ xisnan y = true.
Lemma weakly_x x y : weakly x y <-> xweakly (val S x) (val S y).
Proof using. unfold weakly, xweakly. rewrite (val_leb _ S), !(val_isnan _ S). tauto. Qed.
Lemma xweakly_rnd x y : xweakly x y -> xweakly (rnd S x) (rnd S y).
Proof using. intros [H|[H|H]]; [left; apply (rnd_mono _ S); auto|right; left|right; right]; rewrite (rnd_nan _ S); auto. Qed.
Lemma xweakly_add x y x' y' : xweakly x y -> xweakly x' y' -> xweakly (xadd x x') (xadd y y').
Proof using.
  unfold xweakly. intros H H'. destruct x, y, x', y'; cbn in *; auto;
  destruct H as [H|[H|H]]; try discriminate H; destruct H' as [H'|[H'|H']]; try discriminate H'; auto.
  left. destruct (Rle_bool_spec r r0); try discriminate. destruct (Rle_bool_spec r1 r2); try discriminate. apply Rle_bool_true. lra.
Qed.
Lemma xweakly_div x y k : (0 < k)%R -> xweakly x y -> xweakly (xdiv x (XFin k)) (xdiv y (XFin k)).
Proof using.
  unfold xweakly. intros K H. assert (Rlt_bool k 0 = false) as Kn by (apply Rlt_bool_false; lra).
  destruct x, y; cbn in *; rewrite ?Req_bool_false by lra; rewrite ?Kn; cbn; auto;
  destruct H as [H|[H|H]]; try discriminate H; auto; try (left; reflexivity).
  left. destruct (Rle_bool_spec r r0); try discriminate. apply Rle_bool_true. apply Rmult_le_compat_r; [left; apply Rinv_0_lt_compat|]; lra.
Qed.
Lemma weakly_add x y x' y' : weakly x y -> weakly x' y' -> weakly (n_add x x') (n_add y y').
Proof using S.
  intros H H'. apply weakly_x in H. apply weakly_x in H'. apply weakly_x. rewrite !(val_add _ S). apply xweakly_rnd, xweakly_add; auto.
Qed.
Lemma weakly_fold (l1 : list O) : forall (l2 : list O) x y, length l2 = length l1 ->
  (forall j, j < length l1 -> weakly (nget l1 j) (nget l2 j)) -> weakly x y -> weakly (fold_left n_add l1 x) (fold_left n_add l2 y).
Proof using S.
  induction l1 as [|a l1 IH]; intros [|b l2] x y E H W; try discriminate; auto.
  cbn [fold_left]. apply IH; [cbn in E; lia| |].
  - intros j Hj. apply (H (Datatypes.S j)). cbn. lia.
  - apply weakly_add; auto. apply (H 0). cbn. lia.
Qed.
Lemma weakly_mean (l1 l2 : list O) : 0 < length l1 -> (Z.of_nat (length l1) <= 2 ^ 53)%Z -> length l2 = length l1 ->
  (forall j, j < length l1 -> weakly (nget l1 j) (nget l2 j)) -> weakly (n_mean l1) (n_mean l2).
Proof using S.
  intros H0 HB E H. unfold n_mean. rewrite E. apply weakly_x.
  assert (V : val S (n_ofZ (Z.of_nat (length l1))) = XFin (INR (length l1))) by (rewrite (val_ofZ _ S) by lia; rewrite <- INR_IZR_INZ; reflexivity).
  assert (P : (0 < INR (length l1))%R) by (apply lt_0_INR; lia).
  rewrite !(val_div _ S) by (rewrite V; intros K; injection K; lra). rewrite V. apply xweakly_rnd, xweakly_div; auto. apply weakly_x.
  unfold n_sum. apply weakly_fold; auto. apply weakly_x. left. apply xleb_refl. rewrite <- (val_isnan _ S). apply (isnan_ofZ S). simpl; lia.
Qed.

Lemma constant_weakly (t1 t2 wet b1 b2 : list O) n :
  length t2 = length t1 -> (Z.of_nat n <= 2 ^ 53)%Z ->
  baseline_constant t1 wet n = Ok b1 -> baseline_constant t2 wet n = Ok b2 ->
  (forall i, i < length t1 -> weakly (get n_nan t1 i) (get n_nan t2 i)) ->
  forall i, i < length t1 -> weakly (get n_nan b1 i) (get n_nan b2 i).
Proof using S.
  intros HL HB E1 E2 H.
  destruct (constant_rec _ _ _ _ E1) as [L1 R1]. destruct (constant_rec _ _ _ _ E2) as [L2 R2].
  pose proof (baseline_constant_ok _ _ _ _ E1) as (Hn & _ & _).
  intros i. induction i as [i IH] using lt_wf_ind. intros Hi.
  destruct (R1 i Hi) as [A1 A2]. destruct (R2 i ltac:(lia)) as [B1 B2]. change (weakly (nget b1 i) (nget b2 i)).
  destruct (le_lt_dec n i) as [Ge|Lt]; [|rewrite A1, B1 by auto; apply H; auto].
  rewrite A2, B2 by auto. destruct (get false (map n_truthy wet) i); [|apply H; auto].
  destruct (get false (map n_truthy wet) (i - 1)); [apply IH; lia|].
  apply weakly_mean; rewrite ?slice_length by lia; try lia.
  intros j Hj. unfold nget. rewrite !get_slice by lia. apply IH; lia.
Qed.

(** a property of numbers that averages of one or two keep is a property of the baseline *)
Lemma constant_invariant (P : O -> Prop) (trsl wet b : list O) n :
  (forall l, length l = n -> (forall x, In x l -> P x) -> P (n_mean l)) ->
  baseline_constant trsl wet n = Ok b -> (forall x, In x trsl -> P x) -> forall i, i < length trsl -> P (get n_nan b i).
Proof using.
  intros HM E H. destruct (constant_rec _ _ _ _ E) as [L R]. pose proof (baseline_constant_ok _ _ _ _ E) as (Hn & _ & _).
  intros i. induction i as [i IH] using lt_wf_ind. intros Hi. destruct (R i Hi) as [A B]. change (P (nget b i)).
  assert (HT : P (nget trsl i)) by (apply H; apply get_In; auto).
  destruct (le_lt_dec n i) as [Ge|Lt]; [|rewrite A by auto; exact HT].
  rewrite B by auto. destruct (get false (map n_truthy wet) i); [|exact HT].
  destruct (get false (map n_truthy wet) (i - 1)); [apply IH; lia|].
  apply HM; [rewrite slice_length by lia; lia|]. intros x Hx. apply (In_get n_nan) in Hx as (j & Hj & <-).
  rewrite slice_length in Hj by lia. rewrite get_slice by lia. apply IH; lia.
Qed.
End Any.

(** ** binary64: averages of at most two samples stay between them *)
Definition within (lo hi x : F64) : Prop := n_leb lo x = true /\ n_leb x hi = true.
Lemma rnd_exact r : generic_format radix2 fexp64 r -> (Rabs r < bpow radix2 1024)%R -> f_rnd (XFin r) = XFin r.
Proof. intros G B. unfold f_rnd, rnd64. rewrite round_generic by (auto; apply _). rewrite Rlt_bool_true by auto. reflexivity. Qed.
Lemma double_exact (x : F64) r : f_val x = XFin r -> n_isinf (n_add x x) = false -> f_rnd (XFin (r + r)) = XFin (r + r).
Proof.
  intros V H. assert (G : generic_format radix2 fexp64 (r + r)) by (replace (r + r)%R with (2 * r)%R by ring; apply format_double; eapply format_val; exact V).
  assert (K : rnd64 (r + r) = (r + r)%R) by (unfold rnd64; apply round_generic; auto; apply _).
  rewrite (val_isinf _ F64sem), (val_add _ F64sem) in H. change (val F64sem) with f_val in H. change (rnd F64sem) with f_rnd in H. rewrite V in H. cbn [xadd] in H.
  unfold f_rnd in *. rewrite K in *. destruct (Rlt_bool (Rabs (r + r)) (bpow radix2 1024)); auto. destruct (Rlt_bool (r + r) 0); discriminate.
Qed.
Lemma finite_between (lo hi x : F64) a b : f_val lo = XFin a -> f_val hi = XFin b -> within lo hi x -> exists r, f_val x = XFin r /\ (a <= r <= b)%R.
Proof.
  intros A B [H1 H2]. rewrite (val_leb _ F64sem) in H1, H2. change (val F64sem) with f_val in *. rewrite A in H1. rewrite B in H2.
  destruct (f_val x) as [| |r|]; try discriminate. exists r. cbn in *. destruct (Rle_bool_spec a r), (Rle_bool_spec r b); try discriminate. auto.
Qed.
Lemma within_val (lo hi x : F64) a b : f_val lo = XFin a -> f_val hi = XFin b ->
  xleb (XFin a) (f_val x) = true -> xleb (f_val x) (XFin b) = true -> within lo hi x.
Proof. intros A B H1 H2. split; rewrite (val_leb _ F64sem); change (val F64sem) with f_val; rewrite ?A, ?B; auto. Qed.

Lemma mean_within (lo hi : F64) n l : n_isinf (n_add lo lo) = false -> n_isinf (n_add hi hi) = false -> n_isnan lo = false -> n_isnan hi = false ->
  1 <= n <= 2 -> length l = n -> (forall x, In x l -> within lo hi x) -> within lo hi (n_mean l).
Proof.
  intros D1 D2 N1 N2 Hn HL H.
  assert (FL : forall z : F64, n_isinf (n_add z z) = false -> n_isnan z = false -> exists r, f_val z = XFin r).
  { intros z D N. rewrite (val_isinf _ F64sem), (val_add _ F64sem) in D. rewrite (val_isnan _ F64sem) in N. change (val F64sem) with f_val in *.
    change (rnd F64sem) with f_rnd in D. destruct (f_val z); try discriminate. eauto. }
  destruct (FL lo D1 N1) as [a A]. destruct (FL hi D2 N2) as [b B]. clear FL.
  pose proof (double_exact lo a A D1) as DA. pose proof (double_exact hi b B D2) as DB.
  assert (RV : forall (z : F64) r, f_val z = XFin r -> f_rnd (XFin r) = XFin r) by (intros z r V; rewrite <- V; apply f_rnd_val).
  pose proof (RV lo a A) as RA. pose proof (RV hi b B) as RB.
  assert (V1 : f_val (n_ofZ 1 : F64) = XFin 1) by (change (val F64sem (n_ofZ 1) = XFin 1); rewrite (val_ofZ _ F64sem) by (simpl; lia); reflexivity).
  assert (V2 : f_val (n_ofZ 2 : F64) = XFin 2) by (change (val F64sem (n_ofZ 2) = XFin 2); rewrite (val_ofZ _ F64sem) by (simpl; lia); reflexivity).
  assert (V0 : f_val (zero : F64) = XFin 0) by (change (val F64sem (n_ofZ 0) = XFin 0); rewrite (val_ofZ _ F64sem) by (simpl; lia); reflexivity).
  assert (AD : forall x y : F64, f_val (n_add x y) = f_rnd (xadd (f_val x) (f_val y))) by (intros; apply (val_add _ F64sem)).
  assert (DV : forall x y : F64, f_val y <> XFin 0 -> f_val (n_div x y) = f_rnd (xdiv (f_val x) (f_val y))) by (intros; apply (val_div _ F64sem); auto).
  destruct l as [|x [|y [|z l]]]; cbn [length] in HL; try lia.
  - destruct (finite_between lo hi x a b A B (H x (or_introl eq_refl))) as (r & X & R1 & R2).
    assert (E : f_val (n_mean [x]) = XFin r).
    { unfold n_mean, n_sum. cbn [fold_left length]. change (Z.of_nat 1) with 1%Z. rewrite DV by (rewrite V1; intros K; injection K; lra). rewrite V1, AD, V0, X. cbn [xadd]. rewrite Rplus_0_l, (RV x r X).
      unfold xdiv. rewrite Req_bool_false by lra. replace (r / 1)%R with r by field. apply (RV x r X). }
    apply (within_val lo hi _ a b A B); rewrite E; cbn; apply Rle_bool_true; auto.
  - destruct (finite_between lo hi x a b A B (H x (or_introl eq_refl))) as (r & X & R1 & R2).
    destruct (finite_between lo hi y a b A B (H y (or_intror (or_introl eq_refl)))) as (s & Y & S1 & S2).
    assert (E : f_val (n_mean [x; y]) = f_rnd (xdiv (f_rnd (XFin (r + s))) (XFin 2))).
    { unfold n_mean, n_sum. cbn [fold_left length]. change (Z.of_nat 2) with 2%Z. rewrite DV by (rewrite V2; intros K; injection K; lra). rewrite V2, !AD, V0, X, Y. cbn [xadd]. rewrite Rplus_0_l, (RV x r X). reflexivity. }
    assert (L1 : xleb (XFin (a + a)) (f_rnd (XFin (r + s))) = true) by (rewrite <- DA; apply f_rnd_mono; cbn; apply Rle_bool_true; lra).
    assert (L2 : xleb (f_rnd (XFin (r + s))) (XFin (b + b)) = true) by (rewrite <- DB; apply f_rnd_mono; cbn; apply Rle_bool_true; lra).
    destruct (f_rnd (XFin (r + s))) as [| |q|]; try discriminate. cbn in L1, L2.
    destruct (Rle_bool_spec (a + a) q) as [Q1|]; try discriminate. destruct (Rle_bool_spec q (b + b)) as [Q2|]; try discriminate.
    unfold xdiv in E. rewrite Req_bool_false in E by lra.
    apply (within_val lo hi _ a b A B); rewrite E.
    + rewrite <- RA. apply f_rnd_mono. cbn. apply Rle_bool_true. lra.
    + rewrite <- RB. apply f_rnd_mono. cbn. apply Rle_bool_true. lra.
Qed.

Lemma constant_within (trsl wet : list F64) n (lo hi : F64) :
  1 <= n <= 2 -> length wet = length trsl ->
  n_isinf (n_add lo lo) = false -> n_isinf (n_add hi hi) = false ->
  (forall x, In x trsl -> n_leb lo x = true /\ n_leb x hi = true) ->
  exists b, baseline_constant trsl wet n = Ok b /\
  forall i, i < length trsl -> n_leb lo (get n_nan b i) = true /\ n_leb (get n_nan b i) hi = true.
Proof.
  intros Hn HL D1 D2 H. destruct (constant_exists trsl wet n) as [b E]; try lia. exists b. split; auto.
  destruct trsl as [|x0 trsl]; [cbn; lia|].
  assert (NN : n_isnan lo = false /\ n_isnan hi = false).
  { destruct (H x0 (or_introl eq_refl)) as [H1 H2]. rewrite (val_leb _ F64sem) in H1, H2. rewrite !(val_isnan _ F64sem).
    destruct (val F64sem lo), (val F64sem hi), (val F64sem x0); try discriminate; auto. }
  destruct NN as [N1 N2]. apply (constant_invariant (within lo hi) _ wet b n); auto.
  intros l Hl Hx. apply mean_within with (n := n); auto.
Qed.

Lemma constant_ordered (t1 t2 wet b1 b2 : list F64) n :
  length t2 = length t1 -> (Z.of_nat n <= 2 ^ 53)%Z ->
  (forall i, i < length t1 -> n_leb (get n_nan t1 i) (get n_nan t2 i) = true) ->
  baseline_constant t1 wet n = Ok b1 -> baseline_constant t2 wet n = Ok b2 ->
  forall i, i < length t1 -> n_isnan (get n_nan b1 i) = false -> n_isnan (get n_nan b2 i) = false -> n_leb (get n_nan b1 i) (get n_nan b2 i) = true.
Proof.
  intros HL HB H E1 E2 i Hi M1 M2. destruct (constant_weakly F64sem t1 t2 wet b1 b2 n HL HB E1 E2) with (i := i) as [K|[K|K]]; auto; try congruence.
  intros j Hj. left. apply H; auto.
Qed.
