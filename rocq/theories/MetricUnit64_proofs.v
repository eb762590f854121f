(** * Proofs about the unit of the rain rate in float64 *)
From Coq Require Import Reals Lra ZArith Bool Lia List.
From Flocq Require Import Core IEEE754.BinarySingleNaN.
From Verif Require Import Base Num NumF64 NumList Ulp64 Stats_model Stats_spec Stats_proofs Stats_proofs2 Stats_proofs3 MetricSym_proofs Scale64_proofs MetricUnit64_spec.
Import ListNotations.
Local Open Scope R_scope.
Local Arguments bpow : simpl never.
Local Notation sc := Scale64_proofs.sc.
Local Notation b2 := (bpow radix2).

Section Lists.
Context {A : Type} (j : Z).
Implicit Types (f g : A -> F64) (l : list A).
Definition rel (e : Z) (M : R) f g l : Prop := forall q, In q l -> fsc j e M (f q) (g q).

Lemma b2_mul a b : b2 a * b2 b = b2 (a + b). Proof. rewrite bpow_plus. reflexivity. Qed.
Lemma b2_double a : b2 a + b2 a = b2 (a + 1). Proof. rewrite bpow_plus. change (b2 1) with 2. ring. Qed.

Lemma count_small k h : (Z.of_nat k <= 2 ^ 20)%Z -> (-1000 <= h <= 700)%Z -> small (INR k * b2 h).
Proof.
  intros Hk Hh. rewrite INR_IZR_INZ. split; [apply grid_format; lia|].
  apply Rle_trans with (b2 20 * b2 h); [|rewrite b2_mul; apply bpow_le; lia].
  apply Rmult_le_compat_r; [apply bpow_ge_0|]. change (b2 20) with (IZR (2 ^ 20)). apply IZR_le. lia.
Qed.

Lemma fsc_fold e h f g l : (Z.abs j <= 200)%Z -> (-800 <= e)%Z -> (-1000 <= h <= 700)%Z -> rel e (b2 h) f g l -> forall k x y,
  (Z.of_nat (k + length l) <= 2 ^ 20)%Z -> fsc j e (INR k * b2 h) x y ->
  fsc j e (INR (k + length l) * b2 h) (fold_left f_add (map f l) x) (fold_left f_add (map g l) y).
Proof.
  intros Hj He Hh. induction l as [|q l IH]; intros HR k x y Hk HX; cbn [map fold_left length] in *.
  - rewrite Nat.add_0_r. exact HX.
  - replace (k + S (length l))%nat with (S k + length l)%nat in * by lia. apply IH; auto.
    + intros q' Hq. apply HR. right. exact Hq.
    + apply (fsc_add j e (INR k * b2 h) (b2 h)); auto.
      * apply count_small; lia.
      * rewrite S_INR. lra.
      * apply HR. left. reflexivity.
Qed.

Lemma fsc_zero e M : 0 <= M -> fsc j e M (f_ofZ 0) (f_ofZ 0).
Proof.
  intros HM. change (f_ofZ 0) with (B754_zero false : f64). constructor; auto; cbn [B2R]; try ring.
  - exists 0%Z. ring.
  - rewrite Rabs_R0. exact HM.
Qed.

Lemma fsc_sum e h f g l : (Z.abs j <= 200)%Z -> (-800 <= e)%Z -> (-1000 <= h <= 700)%Z -> (Z.of_nat (length l) <= 2 ^ 20)%Z -> rel e (b2 h) f g l ->
  fsc j e (b2 (h + 20)) (n_sum (map f l)) (n_sum (map g l)).
Proof.
  intros Hj He Hh Hl HR. apply fsc_le with (INR (0 + length l) * b2 h).
  - replace (h + 20)%Z with (20 + h)%Z by lia. rewrite bpow_plus, INR_IZR_INZ. apply Rmult_le_compat_r; [apply bpow_ge_0|]. change (b2 20) with (IZR (2 ^ 20)). apply IZR_le. simpl. lia.
  - apply (fsc_fold e h f g l Hj He Hh HR 0); [exact Hl|]. apply fsc_zero. simpl. lra.
Qed.

Lemma ofnat_fsc n : (0 < Z.of_nat n <= 2 ^ 20)%Z -> fsc 0 0 (b2 20) (f_ofZ (Z.of_nat n)) (f_ofZ (Z.of_nat n)) /\ B2R (f_ofZ (Z.of_nat n)) = IZR (Z.of_nat n).
Proof.
  intros Hn. pose proof (f_val_ofZ_exact (Z.of_nat n) ltac:(lia)) as V.
  assert (F : is_finite (f_ofZ (Z.of_nat n)) = true) by (revert V; destruct (f_ofZ (Z.of_nat n)) as [|[]| |]; intros V; try reflexivity; discriminate V).
  rewrite f_val_finite in V by exact F. injection V as E. split; [|exact E]. apply fsc_same; auto.
  - exists (Z.of_nat n). rewrite E. change (b2 0) with 1. ring.
  - rewrite E, <- abs_IZR. change (b2 20) with (IZR (2 ^ 20)). apply IZR_le. lia.
Qed.

Lemma fsc_mean e h f g l : (Z.abs j <= 200)%Z -> (-780 <= e)%Z -> (-1000 <= h <= 700)%Z -> (Z.of_nat (length l) <= 2 ^ 20)%Z -> rel e (b2 h) f g l -> l <> [] ->
  fsc j (e - 72) (b2 (h + 20)) (n_mean (map f l)) (n_mean (map g l)).
Proof.
  intros Hj He Hh Hl HR HN. unfold n_mean. rewrite !map_length.
  assert (P : (0 < Z.of_nat (length l))%Z) by (destruct l; [congruence|simpl; lia]).
  destruct (ofnat_fsc (length l) ltac:(lia)) as [FN EN].
  pose proof (fsc_sum e h f g l Hj ltac:(lia) Hh Hl HR) as FS.
  replace j with (j - 0)%Z by lia. replace (e - 72)%Z with (e - 20 - 52)%Z by lia.
  refine (fsc_div j 0 e 0 (b2 (h + 20)) 20 (b2 (h + 20)) _ _ _ _ _ _ _ _ _ FS FN _); try lia.
  - apply small_bpow. lia.
  - change (b2 (- 0)) with 1. lra.
  - apply bpow_ge_0.
  - rewrite EN. apply IZR_neq. lia.
Qed.

Lemma rel_finer e e' M f g l : (e' <= e)%Z -> rel e M f g l -> rel e' M f g l.
Proof.
  intros He HR q Hq. destruct (HR q Hq) as [X1 X2 X3 X4 [z X5] X6]. constructor; auto.
  exists (z * 2 ^ (e - e'))%Z. rewrite X5, mult_IZR, (IZR_Zpower radix2), Rmult_assoc, b2_mul by lia. f_equal. f_equal. lia.
Qed.

Lemma rel_centered e h f g l : (Z.abs j <= 200)%Z -> (-700 <= e)%Z -> (-900 <= h <= 600)%Z -> (Z.of_nat (length l) <= 2 ^ 20)%Z -> rel e (b2 h) f g l ->
  rel (e - 72) (b2 (h + 21)) (fun q => n_sub (f q) (n_mean (map f l))) (fun q => n_sub (g q) (n_mean (map g l))) l.
Proof.
  intros Hj He Hh Hl HR q Hq. assert (HN : l <> []) by (intros ->; destruct Hq).
  pose proof (fsc_mean e h f g l Hj ltac:(lia) ltac:(lia) Hl HR HN) as FM.
  refine (fsc_sub j (e - 72) (b2 h) (b2 (h + 20)) (b2 (h + 21)) _ _ _ _ Hj _ _ _ _ FM).
  - lia.
  - apply small_bpow. lia.
  - replace (h + 21)%Z with (h + 20 + 1)%Z by lia. rewrite <- b2_double. pose proof (bpow_le radix2 h (h + 20) ltac:(lia)). lra.
  - exact (rel_finer e (e - 72) (b2 h) f g l ltac:(lia) HR q Hq).
Qed.
End Lists.

Section Pairs.
Context {A : Type} (j : Z) (Hj : (Z.abs j <= 100)%Z).
Implicit Types (f g : A -> F64) (l : list A).

Lemma rel_mul e e' h h' f g f' g' l : (-800 <= e + e')%Z -> (-1000 <= h + h' <= 800)%Z -> rel j e (b2 h) f g l -> rel j e' (b2 h') f' g' l ->
  rel (2 * j) (e + e') (b2 (h + h')) (fun q => n_mul (f q) (f' q)) (fun q => n_mul (g q) (g' q)) l.
Proof.
  intros He Hh H1 H2 q Hq. replace (2 * j)%Z with (j + j)%Z by lia.
  refine (fsc_mul j j e e' (b2 h) (b2 h') _ _ _ _ _ _ _ _ _ (H1 q Hq) (H2 q Hq)); try lia.
  - apply small_bpow. lia.
  - rewrite b2_mul. lra.
Qed.

Lemma rel_abs e M f g l : rel j e M f g l -> rel j e M (fun q => n_abs (f q)) (fun q => n_abs (g q)) l.
Proof. intros H q Hq. apply (fsc_abs j e M). apply H, Hq. Qed.

Lemma rel_diff e h f g f' g' l : (-800 <= e)%Z -> (-1000 <= h <= 700)%Z -> rel j e (b2 h) f g l -> rel j e (b2 h) f' g' l ->
  rel j e (b2 (h + 1)) (fun q => n_sub (f q) (f' q)) (fun q => n_sub (g q) (g' q)) l.
Proof.
  intros He Hh H1 H2 q Hq. refine (fsc_sub j e (b2 h) (b2 h) _ _ _ _ _ _ He _ _ (H1 q Hq) (H2 q Hq)); try lia.
  - apply small_bpow. lia.
  - rewrite b2_double. lra.
Qed.

Lemma sqrt_sc e h x y : (-800 <= e)%Z -> (-1000 <= h <= 800)%Z -> fsc (2 * j) (2 * e) (b2 (2 * h)) x y -> sc j (e - 52) (b2 h) (f_sqrt x) (f_sqrt y).
Proof. intros H1 H2 H. destruct (fsc_sqrt j e h x y) as [[E1 E2]|E]; auto; [lia|left; rewrite E1, E2; split; reflexivity|right; exact E]. Qed.

Definition nonempty l := l <> [].

Lemma std_sc64 e h f g l : (-200 <= e <= 0)%Z -> (0 <= h <= 200)%Z -> (Z.of_nat (length l) <= 2 ^ 20)%Z -> nonempty l -> rel j e (b2 h) f g l ->
  sc j (e - 160) (b2 (h + 31)) (np_std (map f l)) (np_std (map g l)).
Proof.
  intros He Hh Hl HN HR. unfold np_std, v_square. rewrite !centered_map, !map_map.
  pose proof (rel_abs _ _ _ _ _ (rel_centered j e h f g l ltac:(lia) ltac:(lia) ltac:(lia) Hl HR)) as RC.
  pose proof (rel_mul (e - 72) (e - 72) (h + 21) (h + 21) _ _ _ _ l ltac:(lia) ltac:(lia) RC RC) as RM. cbv beta in RM.
  pose proof (fsc_mean (2 * j) (e - 72 + (e - 72)) (h + 21 + (h + 21)) _ _ l ltac:(lia) ltac:(lia) ltac:(lia) Hl RM HN) as FM.
  replace (e - 160)%Z with (e - 108 - 52)%Z by lia. apply sqrt_sc; try lia.
  replace (2 * (e - 108))%Z with (e - 72 + (e - 72) - 72)%Z by lia. replace (2 * (h + 31))%Z with (h + 21 + (h + 21) + 20)%Z by lia. exact FM.
Qed.

Lemma rms_sc64 e h f g l : (-200 <= e <= 0)%Z -> (0 <= h <= 200)%Z -> (Z.of_nat (length l) <= 2 ^ 20)%Z -> nonempty l -> rel j e (b2 h) f g l ->
  sc j (e - 88) (b2 (h + 10)) (n_sqrt (n_mean (map (fun q => n_mul (f q) (f q)) l))) (n_sqrt (n_mean (map (fun q => n_mul (g q) (g q)) l))).
Proof.
  intros He Hh Hl HN HR.
  pose proof (rel_mul e e h h _ _ _ _ l ltac:(lia) ltac:(lia) HR HR) as RM. cbv beta in RM.
  pose proof (fsc_mean (2 * j) (e + e) (h + h) _ _ l ltac:(lia) ltac:(lia) ltac:(lia) Hl RM HN) as FM.
  replace (e - 88)%Z with (e - 36 - 52)%Z by lia. apply sqrt_sc; try lia.
  replace (2 * (e - 36))%Z with (e + e - 72)%Z by lia. replace (2 * (h + 10))%Z with (h + h + 20)%Z by lia. exact FM.
Qed.

Lemma cov_fsc e h f g f' g' l : (-200 <= e <= 0)%Z -> (0 <= h <= 200)%Z -> (Z.of_nat (length l) <= 2 ^ 20)%Z -> (2 <= length l)%nat ->
  rel j e (b2 h) f g l -> rel j e (b2 h) f' g' l ->
  fsc (2 * j) (2 * (e - 108)) (b2 (2 * (h + 31))) (np_cov (map f l) (map f' l)) (np_cov (map g l) (map g' l)).
Proof.
  intros He Hh Hl HN H1 H2. unfold np_cov. rewrite !centered_map, !v_mul_map, !map_length.
  pose proof (rel_mul (e - 72) (e - 72) (h + 21) (h + 21) _ _ _ _ l ltac:(lia) ltac:(lia) (rel_centered j e h f g l ltac:(lia) ltac:(lia) ltac:(lia) Hl H1)
    (rel_centered j e h f' g' l ltac:(lia) ltac:(lia) ltac:(lia) Hl H2)) as RM. cbv beta in RM.
  pose proof (fsc_sum (2 * j) (e - 72 + (e - 72)) (h + 21 + (h + 21)) _ _ l ltac:(lia) ltac:(lia) ltac:(lia) Hl RM) as FS.
  destruct (ofnat_fsc (length l - 1) ltac:(lia)) as [FN EN]. destruct (ofnat_fsc 1 ltac:(lia)) as [F1 E1].
  assert (F1' : fsc 0 0 (b2 0) (f_ofZ 1) (f_ofZ 1)).
  { destruct F1. constructor; auto. change (f_ofZ 1) with (f_ofZ (Z.of_nat 1)). rewrite E1. change (b2 0) with 1. simpl (IZR (Z.of_nat 1)). rewrite Rabs_R1. lra. }
  assert (FI : fsc (0 - 0) (0 - 20 - 52) (b2 0) (n_div (one : F64) (n_ofnat (length l - 1))) (n_div (one : F64) (n_ofnat (length l - 1)))).
  { refine (fsc_div 0 0 0 0 (b2 0) 20 (b2 0) _ _ _ _ _ _ _ _ _ F1' FN _); try lia.
    - apply small_bpow. lia.
    - change (b2 (- 0)) with 1. lra.
    - apply bpow_ge_0.
    - rewrite EN. apply IZR_neq. lia. }
  replace (2 * j)%Z with (2 * j + (0 - 0))%Z by lia. replace (2 * (e - 108))%Z with (e - 72 + (e - 72) + (0 - 20 - 52))%Z by lia.
  refine (fsc_mul (2 * j) (0 - 0) _ _ _ _ _ _ _ _ _ _ _ _ _ FS FI); try lia.
  - apply small_bpow. lia.
  - rewrite b2_mul. replace (2 * (h + 31))%Z with (h + 21 + (h + 21) + 20 + 0)%Z by lia. lra.
Qed.

Lemma corr_same64 f g f' g' l : (Z.of_nat (length l) <= 2 ^ 20)%Z -> rel j (-100) (b2 100) f g l -> rel j (-100) (b2 100) f' g' l ->
  np_corrcoef (map g l) (map g' l) = np_corrcoef (map f l) (map f' l).
Proof.
  intros Hl H1 H2. unfold np_corrcoef.
  assert (E : n_div (n_div (np_cov (map g l) (map g' l)) (n_sqrt (np_cov (map g l) (map g l)))) (n_sqrt (np_cov (map g' l) (map g' l)))
            = n_div (n_div (np_cov (map f l) (map f' l)) (n_sqrt (np_cov (map f l) (map f l)))) (n_sqrt (np_cov (map f' l) (map f' l)))); [|rewrite E; reflexivity].
  destruct (Nat.le_gt_cases 2 (length l)) as [HN|HN].
  - pose proof (cov_fsc (-100) 100 f g f' g' l ltac:(lia) ltac:(lia) Hl HN H1 H2) as C12.
    pose proof (cov_fsc (-100) 100 f g f g l ltac:(lia) ltac:(lia) Hl HN H1 H1) as C11.
    pose proof (cov_fsc (-100) 100 f' g' f' g' l ltac:(lia) ltac:(lia) Hl HN H2 H2) as C22.
    pose proof (fsc_sqrt j (-100 - 108) (100 + 31) _ _ ltac:(lia) ltac:(lia) ltac:(lia) C11) as S1.
    pose proof (fsc_sqrt j (-100 - 108) (100 + 31) _ _ ltac:(lia) ltac:(lia) ltac:(lia) C22) as S2.
    change (@n_sqrt F64) with f_sqrt.
    set (c12 := np_cov (map f l) (map f' l)) in *. set (c12' := np_cov (map g l) (map g' l)) in *.
    set (s1 := f_sqrt (np_cov (map f l) (map f l))) in *. set (s1' := f_sqrt (np_cov (map g l) (map g l))) in *.
    set (s2 := f_sqrt (np_cov (map f' l) (map f' l))) in *. set (s2' := f_sqrt (np_cov (map g' l) (map g' l))) in *.
    clearbody c12 c12' s1 s1' s2 s2'.
    change (f_div (f_div c12' s1') s2' = f_div (f_div c12 s1) s2).
    assert (D1 : sc (2 * j - j) (2 * (-100 - 108) - (100 + 31) - 52) (b2 522) (f_div c12 s1) (f_div c12' s1')).
    { destruct S1 as [[-> ->]|S1].
      - left. destruct c12, c12'; split; reflexivity.
      - refine (fsc_div_any (2 * j) j _ _ _ (100 + 31) _ _ _ _ _ _ _ _ _ _ C12 S1); try lia.
        + apply small_bpow. lia.
        + rewrite b2_mul. apply bpow_le. lia.
        + apply bpow_ge_0. }
    destruct S2 as [[-> ->]|S2]; [destruct (f_div c12 s1), (f_div c12' s1'); reflexivity|].
    destruct D1 as [[N <-]|D1]; [symmetry; apply (div_special _ _ _ _ _ _ N S2)|].
    symmetry. apply (sc_same (2 * (-100 - 108) - (100 + 31) - 52 - (100 + 31) - 52) (b2 782)).
    replace 0%Z with (2 * j - j - j)%Z by lia.
    refine (fsc_div_any (2 * j - j) j _ _ _ (100 + 31) _ _ _ _ _ _ _ _ _ _ D1 S2); try lia.
    + apply small_bpow. lia.
    + rewrite b2_mul. apply bpow_le. lia.
    + apply bpow_ge_0.
  - destruct l as [|q [|]]; [reflexivity| |simpl in HN; lia].
    assert (CV : forall u v u' v', rel j (-100) (b2 100) u v [q] -> rel j (-100) (b2 100) u' v' [q] -> np_cov (map v [q]) (map v' [q]) = np_cov (map u [q]) (map u' [q])).
    { intros u v u' v' HU HV. unfold np_cov. rewrite !centered_map, !v_mul_map, !map_length.
      pose proof (rel_mul (-100 - 72) (-100 - 72) (100 + 21) (100 + 21) _ _ _ _ [q] ltac:(lia) ltac:(lia) (rel_centered j (-100) 100 u v [q] ltac:(lia) ltac:(lia) ltac:(lia) Hl HU)
        (rel_centered j (-100) 100 u' v' [q] ltac:(lia) ltac:(lia) ltac:(lia) Hl HV)) as RM. cbv beta in RM.
      pose proof (fsc_sum (2 * j) (-100 - 72 + (-100 - 72)) (100 + 21 + (100 + 21)) _ _ [q] ltac:(lia) ltac:(lia) ltac:(lia) Hl RM) as FS.
      change (n_div one (n_ofnat (length [q] - 1)) : F64) with (f_div (f_ofZ 1) (f_ofZ 0)).
      replace (f_div (f_ofZ 1) (f_ofZ 0)) with (B754_infinity false : f64) by (vm_compute; reflexivity).
      symmetry. exact (fsc_mul_inf _ _ _ _ _ FS). }
    rewrite (CV f g f' g' H1 H2), (CV f g f g H1 H1), (CV f' g' f' g' H2 H2). reflexivity.
Qed.
End Pairs.

(** ** the metrics *)
Section Metrics.
Variables (c : F64) (j : Z) (Hc : power_of_two c j) (Hj : (Z.abs j <= 100)%Z).
Let s (x : F64) : F64 := n_mul c x.

Lemma usual_fsc x : usual_size x -> fsc j (-100) (b2 100) x (s x).
Proof using Hc Hj.
  intros (r & V & H). assert (F : is_finite x = true) by (revert V; destruct x as [|[]| |]; intros V; try reflexivity; discriminate V).
  rewrite f_val_finite in V by exact F. injection V as V.
  apply (mul_fsc c j Hc); auto; try lia.
  - apply small_bpow. lia.
  - destruct (format_units (-48) (B2R x)) as [z Hz]; [apply generic_format_B2R| |lia|exists z; exact Hz].
    rewrite V. destruct H as [-> | [H _]]; [left; reflexivity|right]. pose proof (bpow_le radix2 (-48) (-47) ltac:(lia)). lra.
  - rewrite V. destruct H as [-> | [_ H]]; [rewrite Rabs_R0; apply bpow_ge_0|exact H].
Qed.

Lemma s_isnan x : n_isnan x = true \/ usual_size x -> n_isnan (s x) = n_isnan x.
Proof using Hc Hj.
  intros [H|H].
  - assert (E : x = B754_nan) by (destruct x; try discriminate H; reflexivity). subst x. unfold s. change (n_mul c) with (f_mul c). rewrite (mul_special c j Hc) by reflexivity. reflexivity.
  - destruct (usual_fsc x H) as [X1 X2 _ _ _ _]. change (is_nan (s x) = is_nan x). rewrite !finite_not_nan by assumption. reflexivity.
Qed.

Lemma valid_s (r p : list F64) : usual_rates r -> usual_rates p ->
  valid_pairs (map s r) (map s p) = map (fun q => (s (fst q), s (snd q))) (valid_pairs r p).
Proof using Hc Hj.
  unfold valid_pairs. revert p. induction r as [|x r IH]; intros [|y p] H1 H2; auto. cbn [map combine filter fst snd].
  rewrite (s_isnan x (H1 x (or_introl eq_refl))), (s_isnan y (H2 y (or_introl eq_refl))).
  assert (E : filter (fun q => negb (n_isnan (fst q)) && negb (n_isnan (snd q))) (combine (map s r) (map s p)) =
    map (fun q => (s (fst q), s (snd q))) (filter (fun q => negb (n_isnan (fst q)) && negb (n_isnan (snd q))) (combine r p))).
  { apply IH; intros z Hz; [apply H1|apply H2]; right; exact Hz. }
  destruct (negb (n_isnan x) && negb (n_isnan y)); cbn [map fst snd]; rewrite E; reflexivity.
Qed.

Lemma valid_usual (r p : list F64) : usual_rates r -> usual_rates p -> forall q, In q (valid_pairs r p) -> usual_size (fst q) /\ usual_size (snd q).
Proof using.
  intros H1 H2 [x y] Hq. unfold valid_pairs in Hq. apply filter_In in Hq as [Hq Hn]. cbn [fst snd] in *. apply andb_prop in Hn as [N1 N2].
  apply negb_true_iff in N1, N2. split.
  - destruct (H1 x (in_combine_l _ _ _ _ Hq)) as [E|E]; [congruence|exact E].
  - destruct (H2 y (in_combine_r _ _ _ _ Hq)) as [E|E]; [congruence|exact E].
Qed.

Lemma s_of e M x y : sc j e M x y -> y = s x.
Proof using Hc. apply (sc_is_mul c j Hc). Qed.

Lemma mean_s {A} e h (f g : A -> F64) l : (-780 <= e)%Z -> (-1000 <= h <= 700)%Z -> (Z.of_nat (length l) <= 2 ^ 20)%Z -> rel j e (b2 h) f g l ->
  n_mean (map g l) = s (n_mean (map f l)).
Proof using Hc Hj.
  intros He Hh Hl HR. destruct l as [|q l]; [apply (s_of 0 0); left; split; vm_compute; reflexivity|].
  apply (s_of (e - 72) (b2 (h + 20))). right. apply fsc_mean; auto; [lia|discriminate].
Qed.

Lemma rain_unit64 (r p : list F64) n t : length r = n -> length p = n -> (Z.of_nat n <= 2 ^ 20)%Z -> usual_rates r -> usual_rates p -> usual_size t ->
  exists e e', calc_rain_error_performance_metrics (mk_arr [n] r) (mk_arr [n] p) t = Ok e /\
  calc_rain_error_performance_metrics (mk_arr [n] (map s r)) (mk_arr [n] (map s p)) (s t) = Ok e' /\
  pearson_correlation e' = pearson_correlation e /\ coefficient_of_variation e' = coefficient_of_variation e /\
  root_mean_square_error e' = s (root_mean_square_error e) /\ mean_absolute_error e' = s (mean_absolute_error e) /\
  R_sum_reference e' = s (R_sum_reference e) /\ R_sum_predicted e' = s (R_sum_predicted e) /\
  R_mean_reference e' = s (R_mean_reference e) /\ R_mean_predicted e' = s (R_mean_predicted e) /\
  re_false_wet_rate e' = re_false_wet_rate e /\ re_missed_wet_rate e' = re_missed_wet_rate e /\
  false_wet_precipitation_rate e' = s (false_wet_precipitation_rate e) /\
  missed_wet_precipitation_rate e' = s (missed_wet_precipitation_rate e) /\
  re_N_nan_pairs e' = re_N_nan_pairs e /\ re_N_all_pairs e' = re_N_all_pairs e.
Proof using Hc Hj.
  intros H1 H2 Hn U1 U2 Ut. assert (E : length r = length p) by congruence.
  assert (E' : length (map s r) = length (map s p)) by (rewrite !map_length; auto).
  rewrite (rain_eval r p n [] t E), (rain_eval _ _ n [] (s t) E'). do 2 eexists. do 2 (split; [reflexivity|]).
  cbn [pearson_correlation coefficient_of_variation root_mean_square_error mean_absolute_error R_sum_reference R_sum_predicted R_mean_reference
       R_mean_predicted re_false_wet_rate re_missed_wet_rate false_wet_precipitation_rate missed_wet_precipitation_rate re_N_nan_pairs re_N_all_pairs].
  pose proof (nan_count r p E) as A.
  assert (NP : b_sum (nan_index (map s r) (map s p)) = b_sum (nan_index r p)).
  { pose proof (nan_count _ _ E') as B. rewrite (valid_s r p U1 U2), !map_length in B. lia. }
  rewrite (valid_s r p U1 U2). pose proof (valid_usual r p U1 U2) as UV. set (ps := valid_pairs r p) in *.
  assert (Hl : (Z.of_nat (length ps) <= 2 ^ 20)%Z) by lia. clearbody ps.
  rewrite !count_map, !map_map. cbn [fst snd]. unfold v_square. rewrite !v_sub_map, !map_map.
  assert (RF : rel j (-100) (b2 100) fst (fun q => s (fst q)) ps) by (intros q Hq; apply usual_fsc, UV, Hq).
  assert (RS : rel j (-100) (b2 100) snd (fun q => s (snd q)) ps) by (intros q Hq; apply usual_fsc, UV, Hq).
  assert (RD : rel j (-100) (b2 101) (fun q => n_sub (snd q) (fst q)) (fun q => n_sub (s (snd q)) (s (fst q))) ps) by (apply (rel_diff j Hj (-100) 100); auto; lia).
  assert (W : forall x, usual_size x -> wet (s t) (s x) = wet t x) by (intros x Hx; apply (fsc_ltb _ _ _ _ _ _ _ _ _ (usual_fsc t Ut) (usual_fsc x Hx))).
  assert (Y : forall x, usual_size x -> dry (s t) (s x) = dry t x) by (intros x Hx; unfold dry; f_equal; apply W; exact Hx).
  assert (CE : forall f g : F64 * F64 -> bool, (forall q, In q ps -> f q = g q) -> count f ps = count g ps) by (intros f g H; apply count_ext; exact H).
  assert (FE : forall f g : F64 * F64 -> bool, (forall q, In q ps -> f (s (fst q), s (snd q)) = g q) ->
     filter f (map (fun q => (s (fst q), s (snd q))) ps) = map (fun q => (s (fst q), s (snd q))) (filter g ps)).
  { intros f g H. rewrite filter_map_comm. f_equal. apply filter_ext_in. exact H. }
  assert (SUB : forall (g : F64 * F64 -> bool) e M (u v : F64 * F64 -> F64), rel j e M u v ps -> rel j e M u v (filter g ps)).
  { intros g e M u v H q Hq. apply filter_In in Hq as [Hq _]. apply H, Hq. }
  assert (LF : forall g : F64 * F64 -> bool, (Z.of_nat (length (filter g ps)) <= 2 ^ 20)%Z) by (intros g; pose proof (filter_length_le' g ps); lia).
  split; [exact (corr_same64 j Hj fst (fun q => s (fst q)) snd (fun q => s (snd q)) ps Hl RF RS)|].
  split.
  { destruct ps as [|q0 ps0]; [reflexivity|]. set (ps := q0 :: ps0) in *. assert (NE : ps <> []) by discriminate.
    pose proof (std_sc64 j Hj (-100) 101 _ _ ps ltac:(lia) ltac:(lia) Hl NE RD) as ST.
    pose proof (fsc_mean j (-100) 100 _ _ ps ltac:(lia) ltac:(lia) ltac:(lia) Hl RF NE) as FM.
    symmetry. destruct ST as [[N <-]|ST]; [apply (div_special _ _ _ _ _ _ N FM)|].
    apply (sc_same (-100 - 160 - (100 + 20) - 52) (b2 304)). replace 0%Z with (j - j)%Z by lia.
    refine (fsc_div_any j j _ _ _ (100 + 20) _ _ _ _ _ _ _ _ _ _ ST FM); try lia.
    - apply small_bpow. lia.
    - rewrite b2_mul. apply bpow_le. lia.
    - apply bpow_ge_0. }
  split.
  { destruct ps as [|q0 ps0]; [apply (s_of 0 0); left; split; vm_compute; reflexivity|]. set (ps := q0 :: ps0) in *.
    apply (s_of (-100 - 88) (b2 (101 + 10))). apply (rms_sc64 j Hj (-100) 101 _ _ ps); auto; try lia. discriminate. }
  split. { apply (mean_s (-100) 101 (fun q => n_abs (n_sub (snd q) (fst q))) (fun q => n_abs (n_sub (s (snd q)) (s (fst q)))) ps); auto; try lia. apply rel_abs. exact RD. }
  split. { apply (s_of (-100) (b2 (100 + 20))). right. apply fsc_sum; auto; lia. }
  split. { apply (s_of (-100) (b2 (100 + 20))). right. apply fsc_sum; auto; lia. }
  split. { apply (mean_s (-100) 100); auto; lia. }
  split. { apply (mean_s (-100) 100); auto; lia. }
  unfold false_wet, missed_wet. cbn [fst snd].
  split. { f_equal; apply CE; intros q Hq; destruct (UV q Hq) as [Q1 Q2]; rewrite ?W, ?Y by assumption; reflexivity. }
  split. { f_equal; apply CE; intros q Hq; destruct (UV q Hq) as [Q1 Q2]; rewrite ?W, ?Y by assumption; reflexivity. }
  split. { rewrite (FE _ (fun q => dry t (fst q) && wet t (snd q))) by (intros q Hq; destruct (UV q Hq) as [Q1 Q2]; cbn [fst snd]; rewrite W, Y by assumption; reflexivity).
           rewrite map_map. cbn [fst snd]. apply (mean_s (-100) 100 snd (fun q => s (snd q))); auto; lia. }
  split. { rewrite (FE _ (fun q => wet t (fst q) && dry t (snd q))) by (intros q Hq; destruct (UV q Hq) as [Q1 Q2]; cbn [fst snd]; rewrite W, Y by assumption; reflexivity).
           rewrite map_map. cbn [fst snd]. apply (mean_s (-100) 100 fst (fun q => s (fst q))); auto; lia. }
  split; [exact NP|reflexivity].
Qed.
End Metrics.

(** ** concrete numbers *)
Lemma power_sf (x : F64) m e k : B2SF x = SpecFloat.S754_finite false m e -> Zpos m = (2 ^ k)%Z -> (0 <= k)%Z -> power_of_two x (k + e).
Proof.
  intros H E Hk. unfold power_of_two. destruct x as [| | |s m' e' B]; try discriminate H. simpl in H. injection H as -> -> ->.
  cbn [f_val B2R]. unfold F2R. cbn [Fnum Fexp cond_Zopp]. rewrite E, (IZR_Zpower radix2) by exact Hk. rewrite bpow_plus. reflexivity.
Qed.

Lemma usual_check (lo hi x : F64) : power_of_two lo (-47) -> power_of_two hi 100 ->
  n_eqb x (n_ofZ 0) || (n_leb lo (n_abs x) && n_leb (n_abs x) hi) = true -> usual_size x.
Proof.
  intros Hlo Hhi H. apply orb_prop in H as [H|H].
  - rewrite (val_eqb _ F64sem) in H. apply xeqb_true in H as [H _]. rewrite (val_ofZ _ F64sem) in H by (compute; discriminate). exists 0. split; [exact H|left; reflexivity].
  - apply andb_prop in H as [H1 H2]. rewrite !(val_leb _ F64sem) in H1, H2. rewrite !(val_abs _ F64sem) in H1, H2.
    change (val F64sem lo) with (f_val lo) in H1. change (val F64sem hi) with (f_val hi) in H2. change (val F64sem x) with (f_val x) in *. rewrite Hlo in H1. rewrite Hhi in H2.
    destruct (f_val x) as [| |r|] eqn:E; try discriminate. exists r. split; [exact E|right].
    cbn [xabs xleb] in H1, H2. destruct (Rle_bool_spec (b2 (-47)) (Rabs r)); [|discriminate]. destruct (Rle_bool_spec (Rabs r) (b2 100)); [|discriminate]. auto.
Qed.
