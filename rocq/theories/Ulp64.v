(** * Rounding error facts about binary64 used by the floating-point versions of exact claims *)
From Coq Require Import ZArith Bool Reals Lra Lia Psatz.
From Flocq Require Import Core Relative.
From Verif Require Import Base Num NumF64.
Local Open Scope R_scope.

Definition u64 : R := bpow radix2 (-53).
Lemma u64_val : u64 = / IZR (2 ^ 53).
Proof. reflexivity. Qed.
Lemma u64_pos : 0 < u64.
Proof. apply bpow_gt_0. Qed.
Lemma u64_small : u64 <= / 1024.
Proof. rewrite u64_val. apply Rinv_le; [lra|]. apply IZR_le. lia. Qed.

Lemma rnd64_generic x : generic_format radix2 fexp64 x -> rnd64 x = x.
Proof. intros H. apply round_generic; auto. apply _. Qed.
Lemma rnd64_format x : generic_format radix2 fexp64 (rnd64 x).
Proof. apply generic_format_round; apply _. Qed.
(** integers below 2^53 times a power of two not below the subnormal spacing *)
Lemma grid_format (z e : Z) : (Z.abs z <= 2 ^ 53)%Z -> (-1074 <= e <= 900)%Z -> generic_format radix2 fexp64 (IZR z * bpow radix2 e).
Proof.
  intros Hz He. change (IZR z * bpow radix2 e) with (F2R (Float radix2 z e)).
  destruct (Z.eq_dec (Z.abs z) (2 ^ 53)) as [E|NE].
  - apply generic_format_abs_inv. rewrite <- F2R_Zabs. rewrite E. unfold F2R. cbn [Fnum Fexp]. change (2 ^ 53)%Z with (radix2 ^ 53)%Z. rewrite IZR_Zpower by lia.
    rewrite <- bpow_plus. apply generic_format_bpow. unfold SpecFloat.fexp, SpecFloat.emin. lia.
  - apply generic_format_F2R. intros H0. unfold cexp. rewrite mag_F2R_Zdigits by auto. cbn [Fnum Fexp].
    pose proof (Zdigits_le_Zpower radix2 53 z) as D. change (Zpower radix2 53)%Z with (2^53)%Z in D.
    assert (Digits.Zdigits radix2 z <= 53)%Z by (apply D; lia). unfold SpecFloat.fexp, SpecFloat.emin. lia.
Qed.
(** a number of the format that is at least 1/2 is a multiple of 2^-53 *)
Lemma format_multiple x : generic_format radix2 fexp64 x -> / 2 <= x -> exists m : Z, x = IZR m * u64.
Proof.
  intros F H. assert (M : (0 <= mag radix2 x - 1)%Z \/ (mag radix2 x - 1 = -1)%Z).
  { assert (-1 < mag radix2 x)%Z; [|lia]. apply mag_gt_bpow. rewrite Rabs_pos_eq by lra. simpl. lra. }
  unfold generic_format, F2R in F. cbn [Fnum Fexp] in F. set (m := Ztrunc (scaled_mantissa radix2 fexp64 x)) in *. set (e := cexp radix2 fexp64 x) in *.
  assert (E : (-53 <= e)%Z) by (unfold e, cexp, SpecFloat.fexp, SpecFloat.emin; lia).
  exists (m * 2 ^ (e + 53))%Z. rewrite F at 1. change (2 ^ (e + 53))%Z with (radix2 ^ (e + 53))%Z. rewrite mult_IZR, IZR_Zpower by lia. rewrite Rmult_assoc. unfold u64.
  rewrite <- bpow_plus. do 2 f_equal. lia.
Qed.
(** rounding a number between 1/2 and 1 moves it by at most 2^-54 *)
Lemma rnd64_half_one x : / 2 <= x <= 1 -> / 2 <= rnd64 x <= 1 /\ Rabs (rnd64 x - x) <= u64 / 2.
Proof.
  intros H.
  assert (F2 : rnd64 (/ 2) = / 2) by (apply rnd64_generic; replace (/ 2) with (IZR 1 * bpow radix2 (-1)) by (simpl; lra); apply grid_format; simpl; lia).
  assert (F1 : rnd64 1 = 1) by (apply rnd64_generic; replace 1 with (IZR 1 * bpow radix2 0) by (simpl; lra); apply grid_format; simpl; lia).
  split.
  - assert (rnd64 (/ 2) <= rnd64 x) by (apply rnd64_le; lra). assert (rnd64 x <= rnd64 1) by (apply rnd64_le; lra). lra.
  - destruct (Req_dec x 1) as [->|N]; [rewrite F1, Rminus_eq_0, Rabs_R0; pose proof u64_pos; lra|].
    assert (M : mag radix2 x = 0%Z :> Z). { apply mag_unique. rewrite Rabs_pos_eq by lra. simpl. lra. }
    pose proof (error_le_half_ulp radix2 fexp64 (fun n => negb (Z.even n)) x) as Q. change (round radix2 fexp64 (Znearest (fun n => negb (Z.even n))) x) with (rnd64 x) in Q.
    rewrite ulp_neq_0 in Q by lra. unfold cexp in Q. rewrite M in Q. change (fexp64 0) with (-53)%Z in Q. fold u64 in Q. lra.
Qed.
(** the tie between 1 - 2^-53 and 1 goes to 1 *)
Lemma rnd64_tie : rnd64 (1 - u64 / 2) = 1.
Proof.
  pose proof u64_pos. pose proof u64_small.
  assert (M : mag radix2 (1 - u64 / 2) = 0%Z :> Z). { apply mag_unique. rewrite Rabs_pos_eq by lra. simpl. lra. }
  unfold rnd64, round, scaled_mantissa, cexp. rewrite M. change (fexp64 0) with (-53)%Z. unfold F2R. cbn [Fnum Fexp].
  assert (P : bpow radix2 (- -53) = IZR (2 ^ 53)) by reflexivity.
  assert (E : (1 - u64 / 2) * bpow radix2 (- -53) = IZR (2 ^ 53) - / 2).
  { rewrite P, u64_val. field. apply IZR_neq. lia. }
  rewrite E.
  assert (FL : Zfloor (IZR (2 ^ 53) - / 2) = (2 ^ 53 - 1)%Z). { apply Zfloor_imp. replace (2 ^ 53 - 1 + 1)%Z with (2 ^ 53)%Z by lia. rewrite minus_IZR. lra. }
  unfold Znearest. rewrite FL. rewrite Rcompare_Eq by (rewrite minus_IZR; lra). change (negb (Z.even (2 ^ 53 - 1))) with true. cbv iota.
  assert (CL : Zceil (IZR (2 ^ 53) - / 2) = (2 ^ 53)%Z). { apply Zceil_imp. rewrite minus_IZR. lra. }
  rewrite CL. change (bpow radix2 (-53)) with (/ IZR (2 ^ 53)). apply Rinv_r. apply IZR_neq. lia.
Qed.
Lemma rnd64_1 : rnd64 1 = 1.
Proof. apply rnd64_generic. replace 1 with (IZR 1 * bpow radix2 0) by (simpl; lra). apply grid_format; simpl; lia. Qed.
Lemma rnd64_above_one x : 1 <= x <= 1 + u64 / 2 -> rnd64 x = 1.
Proof.
  intros H. pose proof u64_pos. pose proof u64_small.
  destruct (Req_dec x 1) as [->|N]; [apply rnd64_1|].
  assert (M : mag radix2 x = 1%Z :> Z). { apply mag_unique. rewrite Rabs_pos_eq by lra. simpl. lra. }
  unfold rnd64, round, scaled_mantissa, cexp. rewrite M. change (fexp64 1) with (-52)%Z. unfold F2R. cbn [Fnum Fexp].
  assert (P : bpow radix2 (- -52) = IZR (2 ^ 52)) by reflexivity. rewrite P.
  assert (U : u64 * IZR (2 ^ 52) = / 2). { rewrite u64_val. change (2 ^ 53)%Z with (2 * 2 ^ 52)%Z. rewrite mult_IZR. field. apply IZR_neq. lia. }
  assert (0 < IZR (2 ^ 52)) by (apply IZR_lt; lia).
  rewrite (Znearest_imp _ _ (2 ^ 52)).
  - change (bpow radix2 (-52)) with (/ IZR (2 ^ 52)). apply Rinv_r. lra.
  - apply Rabs_lt. split; nra.
Qed.
(** the two complementary fractions k/n and (n-k)/n, each rounded, add up to 1 when their sum is rounded *)
Lemma complement_aux x y : / 2 <= y <= 1 -> x = 1 - y -> rnd64 (rnd64 x + rnd64 y) = 1.
Proof.
  intros Hy ->. pose proof u64_pos. pose proof u64_small. destruct (rnd64_half_one y Hy) as [B E].
  destruct (format_multiple (rnd64 y) (rnd64_format y) (proj1 B)) as [m Em]. apply Rabs_le_inv in E.
  assert (U1 : IZR (2 ^ 53) * u64 = 1) by (rewrite u64_val; apply Rinv_r; apply IZR_neq; lia).
  assert (P53 : 0 < IZR (2 ^ 53)) by (apply IZR_lt; lia).
  assert (Hm : (2 ^ 52 <= m <= 2 ^ 53)%Z).
  { assert (H2 : IZR (2 ^ 53) = 2 * IZR (2 ^ 52)) by (rewrite <- mult_IZR; reflexivity).
    split; apply le_IZR; apply (Rmult_le_reg_r u64); auto; rewrite <- Em; [|lra]. nra. }
  assert (U2 : u64 / 2 = bpow radix2 (-54)) by (unfold u64; simpl; lra).
  assert (Eg : forall j, 1 - rnd64 y + IZR j * (u64 / 2) = IZR (2 * (2 ^ 53 - m) + j) * bpow radix2 (-54)).
  { intros j. rewrite <- U2, Em, plus_IZR, mult_IZR, minus_IZR. nra. }
  assert (HI : rnd64 (1 - y) <= 1 - rnd64 y + u64 / 2).
  { destruct (Z.eq_dec m (2 ^ 52)) as [Cm|Nm].
    - assert (Y2 : rnd64 y = / 2). { rewrite Em, Cm. assert (H2 : IZR (2 ^ 53) = 2 * IZR (2 ^ 52)) by (rewrite <- mult_IZR; reflexivity). nra. }
      assert (F2 : rnd64 (/ 2) = / 2) by (apply rnd64_generic; replace (/ 2) with (IZR 1 * bpow radix2 (-1)) by (simpl; lra); apply grid_format; simpl; lia).
      assert (rnd64 (1 - y) <= rnd64 (/ 2)) by (apply rnd64_le; lra). lra.
    - assert (G : rnd64 (1 - rnd64 y + 1 * (u64 / 2)) = 1 - rnd64 y + 1 * (u64 / 2)) by (apply rnd64_generic; rewrite Eg; apply grid_format; lia).
      assert (rnd64 (1 - y) <= rnd64 (1 - rnd64 y + 1 * (u64 / 2))) by (apply rnd64_le; lra). lra. }
  assert (LO : 1 - rnd64 y - u64 / 2 <= rnd64 (1 - y)).
  { assert (G : rnd64 (1 - rnd64 y + (-1) * (u64 / 2)) = 1 - rnd64 y + (-1) * (u64 / 2)) by (apply rnd64_generic; rewrite Eg; apply grid_format; lia).
    assert (rnd64 (1 - rnd64 y + (-1) * (u64 / 2)) <= rnd64 (1 - y)) by (apply rnd64_le; lra). lra. }
  destruct (Rle_dec 1 (rnd64 (1 - y) + rnd64 y)).
  - apply rnd64_above_one. lra.
  - assert (rnd64 (1 - u64 / 2) <= rnd64 (rnd64 (1 - y) + rnd64 y)) by (apply rnd64_le; lra).
    assert (rnd64 (rnd64 (1 - y) + rnd64 y) <= rnd64 1) by (apply rnd64_le; lra). rewrite rnd64_1, rnd64_tie in *. lra.
Qed.
Lemma complement_one x y : 0 <= x -> 0 <= y -> x + y = 1 -> rnd64 (rnd64 x + rnd64 y) = 1.
Proof.
  intros Hx Hy H. destruct (Rle_dec (/ 2) y).
  - apply complement_aux; lra.
  - rewrite Rplus_comm. apply complement_aux; lra.
Qed.

(** relative error of one rounding, away from the subnormal range *)
Lemma rnd64_rel x : bpow radix2 (-1022) <= Rabs x -> exists d, Rabs d <= u64 /\ rnd64 x = x * (1 + d).
Proof.
  intros H. destruct (relative_error_N_FLT_ex radix2 (-1074) 53 eq_refl (fun n => negb (Z.even n)) x H) as (d & Hd & E).
  exists d. split; [|exact E]. replace (/ 2 * bpow radix2 (- (53) + 1)) with u64 in Hd; [exact Hd|]. unfold u64. change (- (53) + 1)%Z with (1 + -53)%Z. rewrite bpow_plus. simpl (bpow radix2 1). lra.
Qed.
(** a finite result of a rounding is the rounded number *)
Lemma f_rnd_finite x v : f_rnd (XFin x) = XFin v -> v = rnd64 x.
Proof.
  unfold f_rnd. destruct (Rlt_bool _ _); [congruence|]. destruct (Rlt_bool _ _); discriminate.
Qed.
(** products of [k] factors close to 1 *)
Definition near (k : nat) (x : R) : Prop := (1 - u64) ^ k <= x <= (1 + u64) ^ k.
Lemma near_1 d : Rabs d <= u64 -> near 1 (1 + d).
Proof. intros H. apply Rabs_le_inv in H. unfold near. rewrite !pow_1. lra. Qed.
Lemma near_mul j k x y : near j x -> near k y -> near (j + k) (x * y).
Proof.
  unfold near. intros Hx Hy. pose proof u64_pos. pose proof u64_small. rewrite !pow_add.
  assert (0 <= (1 - u64) ^ j) by (apply pow_le; lra). assert (0 <= (1 - u64) ^ k) by (apply pow_le; lra).
  split; apply Rmult_le_compat; lra.
Qed.
Lemma near_pos k x : near k x -> 0 < x.
Proof. intros [H _]. pose proof u64_pos. pose proof u64_small. assert (0 < (1 - u64) ^ k) by (apply pow_lt; lra). lra. Qed.
