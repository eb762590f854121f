(** * Proofs about rounding in baseline_linear *)
From Coq Require Import List ZArith Bool Reals Lia Lra Psatz.
From Flocq Require Import Core BinarySingleNaN.
From Flocq Require Import Relative.
From Verif Require Import Base Num NumF64 NumList Baseline_model Baseline_spec BaselineFloat_spec Baseline_proofs Baseline_proofs2.
Import ListNotations.
Local Open Scope R_scope.

Notation U := (bpow radix2 (-53)).
Lemma U_pos : 0 < U. Proof. apply bpow_gt_0. Qed.
Lemma U_small : U <= 1 / 1000000000.
Proof. cbn. lra. Qed.
(** rounding up is at most a factor of 1 + 2^-53 *)
Lemma rnd_up x : bpow radix2 (-1000) <= x -> rnd64 x <= x * (1 + U).
Proof.
  intros H. pose proof (bpow_gt_0 radix2 (-1000)) as P.
  pose proof (relative_error_N_FLT radix2 (-1074) 53 eq_refl (fun z => negb (Z.even z)) x) as E.
  assert (A : bpow radix2 (-1074 + 53 - 1) <= Rabs x).
  { rewrite Rabs_pos_eq by lra. apply Rle_trans with (2 := H). apply bpow_le. lia. }
  specialize (E A). rewrite (Rabs_pos_eq x) in E by lra.
  replace (/ 2 * bpow radix2 (- (53) + 1))%R with U in E.
  - change (round radix2 (FLT_exp (-1074) 53) (Znearest (fun z => negb (Z.even z))) x) with (rnd64 x) in E.
    apply Rabs_le_inv in E. destruct E. lra.
  - change (/ 2) with (bpow radix2 (-1)). rewrite <- bpow_plus. reflexivity.
Qed.
Lemma rnd_ge0 x : 0 <= x -> 0 <= rnd64 x.
Proof. intros H. rewrite <- rnd64_0. apply rnd64_le. exact H. Qed.
Lemma rnd64_opp x : rnd64 (- x) = - rnd64 x.
Proof. unfold rnd64. apply round_NE_opp. Qed.

(** the rounded point on the line *)
Definition step (a z : R) (m : R) : R := rnd64 (rnd64 (z - a) / m).
Definition pt (a z m k : R) : R := rnd64 (a + rnd64 (k * step a z m)).
Lemma step_opp a z m : step (- a) (- z) m = - step a z m.
Proof. unfold step. replace (- z - - a) with (- (z - a)) by ring. rewrite rnd64_opp. unfold Rdiv. rewrite <- Ropp_mult_distr_l, rnd64_opp. reflexivity. Qed.
Lemma pt_opp a z m k : pt (- a) (- z) m k = - pt a z m k.
Proof.
  unfold pt. rewrite step_opp, <- Ropp_mult_distr_r, rnd64_opp. replace (- a + - rnd64 (k * step a z m)) with (- (a + rnd64 (k * step a z m))) by ring. apply rnd64_opp.
Qed.

Section Up.
Variables (a z m : R).
Hypotheses (FA : rnd64 a = a) (FZ : rnd64 z = z) (LE : a <= z) (M : 1 <= m) (MB : m <= bpow radix2 50).
Hypothesis APART : a = z \/ bpow radix2 (-54) <= z - a.
Lemma step_nonneg : 0 <= step a z m.
Proof using LE M.
  unfold step. apply rnd_ge0. apply Rmult_le_pos; [apply rnd_ge0; lra|]. left. apply Rinv_0_lt_compat. lra.
Qed.
Lemma offset_bound k : 0 <= k <= m - 1 -> (1 <= k \/ k = 0) -> 0 <= rnd64 (k * step a z m) <= z - a.
Proof using FA FZ LE M MB APART.
  intros [K0 K] [K1|K1].
  - split; [apply rnd_ge0; apply Rmult_le_pos; [lra|apply step_nonneg]|].
    destruct APART as [->|AP].
    + unfold step. replace (z - z) with 0 by ring. rewrite rnd64_0. unfold Rdiv. rewrite Rmult_0_l, rnd64_0, Rmult_0_r, rnd64_0. lra.
    + pose proof U_pos as UP. pose proof U_small as US.
      assert (B54 : bpow radix2 (-1000) <= bpow radix2 (-54)) by (apply bpow_le; lia).
      pose proof (bpow_gt_0 radix2 (-54)) as P54.
      set (d := z - a) in *.
      assert (D1 : rnd64 d <= d * (1 + U)) by (apply rnd_up; lra).
      assert (D0 : bpow radix2 (-54) <= rnd64 d).
      { unfold rnd64. apply round_ge_generic; try apply _; auto. apply generic_format_bpow; unfold SpecFloat.fexp, SpecFloat.emin; lia. }
      assert (MP : 0 < / m) by (apply Rinv_0_lt_compat; lra).
      assert (MI : bpow radix2 (-50) <= / m).
      { change (-50)%Z with (- (50))%Z. rewrite bpow_opp. apply Rinv_le; [lra|exact MB]. }
      assert (Q : bpow radix2 (-104) <= rnd64 d / m).
      { change (-104)%Z with (-54 + -50)%Z. rewrite bpow_plus. unfold Rdiv. apply Rmult_le_compat; try (apply bpow_ge_0); lra. }
      assert (S1 : step a z m <= rnd64 d / m * (1 + U)).
      { unfold step. fold d. apply rnd_up. apply Rle_trans with (2 := Q). apply bpow_le. lia. }
      assert (S0 : bpow radix2 (-104) <= step a z m).
      { unfold step. fold d. unfold rnd64 at 1. apply round_ge_generic; try apply _; auto. apply generic_format_bpow; unfold SpecFloat.fexp, SpecFloat.emin; lia. }
      pose proof (bpow_gt_0 radix2 (-104)) as P104.
      assert (R1 : rnd64 (k * step a z m) <= k * step a z m * (1 + U)).
      { apply rnd_up. apply Rle_trans with (bpow radix2 (-104)); [apply bpow_le; lia|].
        apply Rle_trans with (1 * step a z m); [lra|]. apply Rmult_le_compat_r; lra. }
      apply Rle_trans with (1 := R1).
      (* k/m <= 1 - 1/m <= 1 - 2^-50 *)
      assert (KM : k * / m <= 1 - bpow radix2 (-50)).
      { apply Rle_trans with ((m - 1) * / m); [apply Rmult_le_compat_r; lra|]. replace ((m - 1) * / m) with (1 - / m) by (field; lra). lra. }
      apply Rle_trans with (k * (d * (1 + U) / m * (1 + U)) * (1 + U)).
      { apply Rmult_le_compat_r; [lra|]. apply Rmult_le_compat_l; [lra|]. apply Rle_trans with (1 := S1). apply Rmult_le_compat_r; [lra|].
        unfold Rdiv. apply Rmult_le_compat_r; lra. }
      replace (k * (d * (1 + U) / m * (1 + U)) * (1 + U)) with (d * ((k * / m) * ((1 + U) * (1 + U) * (1 + U)))) by (unfold Rdiv; ring).
      rewrite <- (Rmult_1_r d) at 2. apply Rmult_le_compat_l; [lra|].
      assert (E50 : bpow radix2 (-50) = 8 * U).
      { change 8 with (bpow radix2 3). rewrite <- bpow_plus. reflexivity. }
      rewrite E50 in KM.
      apply Rle_trans with ((1 - 8 * U) * ((1 + U) * (1 + U) * (1 + U))).
      { apply Rmult_le_compat_r; [|exact KM]. repeat apply Rmult_le_pos; lra. }
      set (u := U) in *. clearbody u. clear - UP US. nra.
  - subst k. rewrite Rmult_0_l, rnd64_0. lra.
Qed.
Lemma pt_bound k : 0 <= k <= m - 1 -> (1 <= k \/ k = 0) -> a <= pt a z m k <= z.
Proof using FA FZ LE M MB APART.
  intros K K1. pose proof (offset_bound k K K1) as [O1 O2]. unfold pt. split.
  - rewrite <- FA at 1. apply rnd64_le. lra.
  - rewrite <- FZ at 2. apply rnd64_le. lra.
Qed.
Lemma pt_mono k k' : k <= k' -> pt a z m k <= pt a z m k'.
Proof using LE M.
  intros K. unfold pt. apply rnd64_le. apply Rplus_le_compat_l. apply rnd64_le. apply Rmult_le_compat_r; [apply step_nonneg|exact K].
Qed.
End Up.

(** ** values of [line_point] *)
Lemma rnd_no_overflow r : Rabs r <= bpow radix2 1000 -> f_rnd (XFin r) = XFin (rnd64 r).
Proof.
  intros H. unfold f_rnd. rewrite Rlt_bool_true; auto. apply Rle_lt_trans with (bpow radix2 1000); [|apply bpow_lt; lia].
  unfold rnd64. apply abs_round_le_generic; try apply _; auto. apply generic_format_bpow; unfold SpecFloat.fexp, SpecFloat.emin; lia.
Qed.
Lemma rnd_abs r e : (-1000 <= e)%Z -> Rabs r <= bpow radix2 e -> Rabs (rnd64 r) <= bpow radix2 e.
Proof.
  intros E H. unfold rnd64. apply abs_round_le_generic; try apply _; auto. apply generic_format_bpow. unfold SpecFloat.fexp, SpecFloat.emin. lia.
Qed.

Local Notation V := f_val.
Lemma ofnat_V n : (Z.of_nat n <= 2 ^ 50)%Z -> V (n_ofZ (Z.of_nat n) : F64) = XFin (INR n).
Proof. intros H. change (val F64sem (n_ofZ (Z.of_nat n)) = XFin (INR n)). rewrite (val_ofZ _ F64sem) by lia. rewrite <- INR_IZR_INZ. reflexivity. Qed.
Section Line.
Variables (a z : F64) (A Z : R) (m k : nat).
Hypotheses (VA : V a = XFin A) (VZ : V z = XFin Z) (BA : Rabs A <= bpow radix2 53) (BZ : Rabs Z <= bpow radix2 53).
Hypotheses (M : (1 <= m)%nat) (MB : (Z.of_nat m <= 2 ^ 50)%Z) (K : (k < m)%nat).
Lemma m_real : 1 <= INR m <= bpow radix2 50.
Proof using M MB.
  split; [apply (le_INR 1); auto|]. rewrite INR_IZR_INZ. change (bpow radix2 50) with (IZR (2 ^ 50)). apply IZR_le. exact MB.
Qed.
Lemma k_real : 0 <= INR k <= INR m - 1 /\ (1 <= INR k \/ INR k = 0).
Proof using K.
  clear - K. split.
  - split; [apply pos_INR|]. apply (le_INR (Datatypes.S k)) in K. rewrite S_INR in K. lra.
  - destruct k; [right; reflexivity|left]. apply (le_INR 1). lia.
Qed.
Lemma line_value : V (line_point a z m k) = XFin (pt A Z (INR m) (INR k)).
Proof using VA VZ BA BZ M MB K.
  pose proof m_real as [M1 M2]. pose proof k_real as [[K0 K1] _].
  assert (AD : forall x y : F64, V (n_add x y) = f_rnd (xadd (V x) (V y))) by (intros; apply (val_add _ F64sem)).
  assert (SB : forall x y : F64, V (n_sub x y) = f_rnd (xsub (V x) (V y))) by (intros; apply (val_sub _ F64sem)).
  assert (ML : forall x y : F64, V (n_mul x y) = f_rnd (xmul (V x) (V y))) by (intros; apply (val_mul _ F64sem)).
  assert (DV : forall x y : F64, V y <> XFin 0 -> V (n_div x y) = f_rnd (xdiv (V x) (V y))) by (intros; apply (val_div _ F64sem); auto).
  assert (B54 : bpow radix2 53 + bpow radix2 53 = bpow radix2 54).
  { replace (bpow radix2 53 + bpow radix2 53) with (bpow radix2 1 * bpow radix2 53) by (change (bpow radix2 1) with 2; ring). rewrite <- bpow_plus. reflexivity. }
  assert (D : Rabs (Z - A) <= bpow radix2 54).
  { rewrite <- B54. unfold Rminus. apply Rle_trans with (1 := Rabs_triang _ _). rewrite Rabs_Ropp. apply Rplus_le_compat; auto. }
  assert (D' : Rabs (rnd64 (Z - A)) <= bpow radix2 54) by (apply rnd_abs; [lia|exact D]).
  assert (Q : Rabs (rnd64 (Z - A) / INR m) <= bpow radix2 54).
  { unfold Rdiv. rewrite Rabs_mult, (Rabs_pos_eq (/ INR m)) by (left; apply Rinv_0_lt_compat; lra).
    rewrite <- (Rmult_1_r (bpow radix2 54)). apply Rmult_le_compat; try apply Rabs_pos; auto; [left; apply Rinv_0_lt_compat; lra|].
    rewrite <- Rinv_1. apply Rinv_le; lra. }
  assert (ST : Rabs (step A Z (INR m)) <= bpow radix2 54) by (unfold step; apply rnd_abs; [lia|exact Q]).
  assert (PR : Rabs (INR k * step A Z (INR m)) <= bpow radix2 104).
  { rewrite Rabs_mult. change 104%Z with (50 + 54)%Z. rewrite bpow_plus. apply Rmult_le_compat; try apply Rabs_pos; auto. rewrite Rabs_pos_eq by auto. lra. }
  assert (PR' : Rabs (rnd64 (INR k * step A Z (INR m))) <= bpow radix2 104) by (apply rnd_abs; [lia|exact PR]).
  assert (SM : Rabs (A + rnd64 (INR k * step A Z (INR m))) <= bpow radix2 1000).
  { apply Rle_trans with (1 := Rabs_triang _ _). apply Rle_trans with (bpow radix2 104 + bpow radix2 104).
    - apply Rplus_le_compat; auto. apply Rle_trans with (1 := BA). apply bpow_le. lia.
    - replace (bpow radix2 104 + bpow radix2 104) with (bpow radix2 1 * bpow radix2 104) by (change (bpow radix2 1) with 2; ring). rewrite <- bpow_plus. apply bpow_le. lia. }
  assert (UP : forall r e, (e <= 1000)%Z -> Rabs r <= bpow radix2 e -> Rabs r <= bpow radix2 1000).
  { intros r e E H. apply Rle_trans with (1 := H). apply bpow_le. exact E. }
  unfold line_point. rewrite AD, ML, DV, SB by (rewrite ofnat_V by auto; intros X; injection X as X; lra).
  rewrite !ofnat_V by lia. rewrite VA, VZ. change (xsub (XFin Z) (XFin A)) with (XFin (Z - A)).
  rewrite rnd_no_overflow by (apply (UP _ 54%Z); [lia|exact D]).
  unfold xdiv. rewrite Req_bool_false by lra. rewrite rnd_no_overflow by (apply (UP _ 54%Z); [lia|exact Q]). fold (step A Z (INR m)).
  cbn [xmul]. rewrite rnd_no_overflow by (apply (UP _ 104%Z); [lia|exact PR]).
  cbn [xadd]. rewrite rnd_no_overflow by exact SM. reflexivity.
Qed.
End Line.

(** ** the range of a clean wet period *)
Lemma fin_le a b : xleb (XFin a) (XFin b) = true <-> a <= b.
Proof. cbn. destruct (Rle_bool_spec a b); split; intros; auto; try discriminate; lra. Qed.
Lemma moderate_val x : moderate x -> exists r, V x = XFin r /\ Rabs r <= bpow radix2 53 /\ rnd64 r = r.
Proof.
  intros [H1 H2]. rewrite (val_leb _ F64sem) in H1, H2. rewrite (val_ofZ _ F64sem) in H1, H2 by (cbn; lia).
  change (val F64sem x) with (V x) in *. pose proof (f_rnd_val x) as R. destruct (V x) as [| |r|]; try discriminate. exists r. split; auto.
  apply fin_le in H1. apply fin_le in H2. change (bpow radix2 53) with (IZR (2 ^ 53)). rewrite opp_IZR in H1. split; [apply Rabs_le; lra|].
  unfold f_rnd in R. destruct (Rlt_bool _ _); [injection R; auto|destruct (Rlt_bool r 0); discriminate].
Qed.
Lemma apart_val x y r s : V x = XFin r -> V y = XFin s -> apart x y -> r = s \/ bpow radix2 (-54) <= Rabs (r - s).
Proof.
  intros X Y [H|H].
  - left. rewrite (val_eqb _ F64sem) in H. change (val F64sem) with f_val in H. rewrite X, Y in H. cbn in H. destruct (Req_bool_spec r s); auto; discriminate.
  - right. destruct (Rle_lt_dec (bpow radix2 (-54)) (Rabs (r - s))) as [|C]; auto. exfalso.
    rewrite (val_leb _ F64sem), (val_abs _ F64sem), (val_sub _ F64sem), (val_div _ F64sem), !(val_ofZ _ F64sem) in H by
      (try (cbn; lia); rewrite (val_ofZ _ F64sem) by (cbn; lia); intros E; injection E as E; lra).
    change (val F64sem) with f_val in H. change (rnd F64sem) with f_rnd in H. rewrite X, Y in H.
    unfold xdiv in H. rewrite Req_bool_false in H by (intros E; lra).
    replace (1 / IZR (2 ^ 53)) with U in H by (change (IZR (2 ^ 53)) with (bpow radix2 53); change (-53)%Z with (- (53))%Z; rewrite bpow_opp; unfold Rdiv; ring).
    assert (AU : Rabs U <= bpow radix2 1000) by (rewrite Rabs_pos_eq by (left; apply U_pos); apply bpow_le; lia).
    change (xsub (XFin r) (XFin s)) with (XFin (r - s)) in H. rewrite !rnd_no_overflow in H; auto; [|apply Rle_trans with (bpow radix2 (-54)); [lra|apply bpow_le; lia]].
    cbn [xabs] in H. apply fin_le in H.
    assert (EU : rnd64 U = U) by (unfold rnd64; apply round_generic; try apply _; apply generic_format_bpow; unfold SpecFloat.fexp, SpecFloat.emin; lia).
    rewrite EU in H. pose proof (rnd_abs (r - s) (-54) ltac:(lia) ltac:(lra)) as L.
    assert (bpow radix2 (-54) < U) by (apply bpow_lt; lia). lra.
Qed.

Lemma pt_between A Z m k k' : rnd64 A = A -> rnd64 Z = Z -> 1 <= m <= bpow radix2 50 -> A = Z \/ bpow radix2 (-54) <= Rabs (A - Z) ->
  0 <= k <= m - 1 -> (1 <= k \/ k = 0) -> k <= k' ->
  (A <= Z -> A <= pt A Z m k <= Z /\ pt A Z m k <= pt A Z m k') /\
  (Z <= A -> Z <= pt A Z m k <= A /\ pt A Z m k' <= pt A Z m k).
Proof.
  intros FA FZ [M1 M2] AP K K1 KK. split; intros LE.
  - assert (AP' : A = Z \/ bpow radix2 (-54) <= Z - A) by (destruct AP as [AP|AP]; auto; right; rewrite Rabs_minus_sym, Rabs_pos_eq in AP by lra; exact AP).
    split; [apply pt_bound; auto|apply pt_mono; auto].
  - assert (AP' : - A = - Z \/ bpow radix2 (-54) <= - Z - - A) by (destruct AP as [->|AP]; auto; right; rewrite Rabs_pos_eq in AP by lra; lra).
    assert (FA' : rnd64 (- A) = - A) by (rewrite rnd64_opp, FA; reflexivity). assert (FZ' : rnd64 (- Z) = - Z) by (rewrite rnd64_opp, FZ; reflexivity).
    pose proof (pt_bound (- A) (- Z) m FA' FZ' ltac:(lra) M1 M2 AP' k K K1) as B. pose proof (pt_mono (- A) (- Z) m ltac:(lra) M1 k k' KK) as B2.
    rewrite pt_opp in B. rewrite (pt_opp A Z m k), (pt_opp A Z m k') in B2. clear - B B2. destruct B as [B0 B1]. split; [split|]; lra.
Qed.

Local Open Scope nat_scope.
Lemma linear_range (rsl wet : list F64) ign :
  1 <= length rsl -> length wet = length rsl ->
  exists b, baseline_linear rsl wet ign = Ok b /\
  forall d e, completed ign wet (length rsl) d e -> ~ has_nan ign wet d e -> (Z.of_nat (e - d) <= 2 ^ 50)%Z ->
  let a := get n_nan rsl d in let z := get n_nan rsl e in moderate a -> moderate z -> apart a z ->
  (n_leb a z = true -> forall j k, d <= j <= k -> k < e ->
     n_leb a (get n_nan b j) = true /\ n_leb (get n_nan b j) (get n_nan b k) = true /\ n_leb (get n_nan b k) z = true) /\
  (n_leb z a = true -> forall j k, d <= j <= k -> k < e ->
     n_leb z (get n_nan b k) = true /\ n_leb (get n_nan b k) (get n_nan b j) = true /\ n_leb (get n_nan b j) a = true).
Proof.
  intros H1 H2. destruct (linear_run_final rsl wet ign H1 H2) as (b & E & _ & R & _). exists b. split; auto.
  intros d e C HN HB a z Ma Mz AP. pose proof C as (C1 & C2 & _).
  destruct (moderate_val a Ma) as (A & VA & BA & FA). destruct (moderate_val z Mz) as (Z & VZ & BZ & FZ).
  pose proof (apart_val a z A Z VA VZ AP) as APR.
  assert (LV : forall j, d <= j < e -> V (get n_nan b j) = XFin (pt A Z (INR (e - d)) (INR (j - d)))).
  { intros j Hj. rewrite (R d e C HN j Hj). apply line_value; auto; lia. }
  assert (BT : forall j k, d <= j <= k -> k < e -> _) by
    (intros j k J K; exact (pt_between A Z (INR (e - d)) (INR (j - d)) (INR (k - d)) FA FZ (m_real (e - d) ltac:(lia) HB) APR
      (proj1 (k_real (e - d) (j - d) ltac:(lia))) (proj2 (k_real (e - d) (j - d) ltac:(lia))) (le_INR (j - d) (k - d) ltac:(lia)))).
  assert (LB : forall (x y : F64) r s, V x = XFin r -> V y = XFin s -> (n_leb x y = true <-> (r <= s)%R)).
  { intros x y r s X Y. rewrite (val_leb _ F64sem). change (val F64sem) with f_val. rewrite X, Y. apply fin_le. }
  split; intros L j k J K.
  - apply (LB a z A Z VA VZ) in L. pose proof (proj1 (BT j k J K) L) as [[P1 P2] P3]. pose proof (proj1 (BT k k ltac:(lia) K) L) as [[P4 P5] _].
    split; [apply (LB _ _ _ _ VA (LV j ltac:(lia))); auto|]. split; [apply (LB _ _ _ _ (LV j ltac:(lia)) (LV k ltac:(lia))); auto|apply (LB _ _ _ _ (LV k ltac:(lia)) VZ); auto].
  - apply (LB z a Z A VZ VA) in L. pose proof (proj2 (BT j k J K) L) as [[P1 P2] P3]. pose proof (proj2 (BT k k ltac:(lia) K) L) as [[P4 P5] _].
    split; [apply (LB _ _ _ _ VZ (LV k ltac:(lia))); auto|]. split; [apply (LB _ _ _ _ (LV k ltac:(lia)) (LV j ltac:(lia))); auto|apply (LB _ _ _ _ (LV j ltac:(lia)) VA); auto].
Qed.
