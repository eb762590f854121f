(** * Inverse distance weighting in float64 *)
From Coq Require Import Reals Lra Lia ZArith Bool Psatz List Permutation.
From Flocq Require Import Core Relative IEEE754.BinarySingleNaN.
From Verif Require Import Base Num NumF64 NumList NpOps RealStat Libm Libm64 Ulp64 Idw_model Idw_spec HaversineFloat_spec HaversineFloat_proofs HaversineFloat_proofs2 HaversineAcc_proofs FloatErr_spec FloatErr_proofs.
Import ListNotations.
Local Open Scope R_scope.
Local Arguments bpow : simpl never.

Definition fr (x : F64) : R := B2R (x : f64).
Lemma num_fr x r : is_num x r -> fr x = r.
Proof. unfold is_num, fr, f_val. destruct x as [s|[|]| |s m e b]; intros H; try discriminate H; (inversion H; subst; reflexivity). Qed.
Lemma fr_num x r : is_num x r -> is_num x (fr x).
Proof. intros H. rewrite (num_fr x r H). auto. Qed.
Lemma nums_map {A} (f : A -> F64) l : (forall e, In e l -> exists r, is_num (f e) r) -> are_nums (map f l) (map (fun e => fr (f e)) l).
Proof.
  induction l as [|e l IH]; intros H; [constructor|]. cbn [map]. constructor.
  - destruct (H e (or_introl eq_refl)) as (r & E). eapply fr_num; eauto.
  - apply IH. intros e' H'. apply H. right. auto.
Qed.
Lemma rsum_map_le {A} (f g : A -> R) l : (forall e, In e l -> f e <= g e) -> rsum (map f l) <= rsum (map g l).
Proof.
  induction l as [|e l IH]; intros H; cbn [map rsum fold_right]; [lra|]. fold (rsum (map f l)) (rsum (map g l)).
  pose proof (H e (or_introl eq_refl)). assert (rsum (map f l) <= rsum (map g l)) by (apply IH; intros; apply H; right; auto). lra.
Qed.
Lemma rsum_map_lin {A} (f : A -> R) a b l : rsum (map (fun e => a * f e + b) l) = a * rsum (map f l) + INR (length l) * b.
Proof.
  induction l as [|e l IH]; [cbn; lra|]. cbn [map rsum fold_right length]. fold (rsum (map f l)) (rsum (map (fun e => a * f e + b) l)). rewrite IH, S_INR. lra.
Qed.
Lemma rsum_map_minus {A} (f g : A -> R) l : rsum (map f l) - rsum (map g l) = rsum (map (fun e => f e - g e) l).
Proof. induction l as [|e l IH]; [cbn; lra|]. cbn [map rsum fold_right]. fold (rsum (map f l)) (rsum (map g l)) (rsum (map (fun e => f e - g e) l)). lra. Qed.
Lemma rsum_elem {A} (f : A -> R) l e : (forall e, In e l -> 0 <= f e) -> In e l -> f e <= rsum (map f l).
Proof.
  induction l as [|e0 l IH]; intros H I; [destruct I|destruct I as [->|I]]; cbn [map rsum fold_right]; fold (rsum (map f l)).
  - assert (0 <= rsum (map f l)). { clear IH. assert (H' : forall e0, In e0 l -> 0 <= f e0) by (intros; apply H; right; auto). clear H. induction l as [|a l IH]; cbn [map rsum fold_right]; [lra|]. fold (rsum (map f l)). pose proof (H' a (or_introl eq_refl)). assert (0 <= rsum (map f l)) by (apply IH; intros; apply H'; right; auto). lra. }
    lra.
  - pose proof (H e0 (or_introl eq_refl)). assert (f e <= rsum (map f l)) by (apply IH; auto; intros; apply H; right; auto). lra.
Qed.

Lemma pow_bpow k : bpow radix2 (Z.of_nat k) = 2 ^ k.
Proof. change 2 with (IZR radix2). rewrite bpow_powerRZ. symmetry. apply pow_powerRZ. Qed.
Lemma rnd_pow_lo r k : (k <= 1000)%nat -> / 2 ^ k <= r -> / 2 ^ k <= rnd64 r.
Proof.
  intros K H. rewrite <- bpow_neg in *. rewrite <- (rnd64_generic (bpow radix2 (- Z.of_nat k))); [apply rnd64_le; auto|].
  apply generic_format_bpow. unfold SpecFloat.fexp, SpecFloat.emin. lia.
Qed.
Lemma rnd_pow_hi r k : (k <= 1000)%nat -> r <= 2 ^ k -> rnd64 r <= 2 ^ k.
Proof.
  intros K H. rewrite <- pow_bpow in *. rewrite <- (rnd64_generic (bpow radix2 (Z.of_nat k))); [apply rnd64_le; auto|].
  apply generic_format_bpow. unfold SpecFloat.fexp, SpecFloat.emin. lia.
Qed.
Lemma pow_big k : (k <= 1000)%nat -> 2 ^ k <= big.
Proof. intros H. rewrite <- pow_bpow. apply bpow_le. lia. Qed.
Lemma n0_pow : n0 = / 2 ^ 1074.
Proof. unfold n0. rewrite <- bpow_neg. f_equal. Qed.

Lemma some_in {A} (l : list A) : l <> [] -> exists e, In e l.
Proof. destruct l as [|a l]; [congruence|]. intros _. exists a. left. auto. Qed.
Lemma ge1 {A} (l : list A) : l <> [] -> 1 <= INR (length l).
Proof. destruct l as [|a l]; [congruence|]. intros _. cbn [length]. rewrite S_INR. pose proof (pos_INR (length l)). lra. Qed.
Lemma sum_zeros (l : list F64) : (forall x, In x l -> is_num x 0) -> is_num (n_sum l) 0.
Proof.
  unfold n_sum. pose proof is_zero as Z. generalize (zero : F64) Z. induction l as [|x l IH]; intros acc A H; [exact A|]. cbn [fold_left]. apply IH; [|intros; apply H; right; auto].
  pose proof (is_add acc x 0 0 A (H x (or_introl eq_refl))) as E. rewrite Rplus_0_r, rnd64_0 in E. apply E. rewrite Rabs_R0. apply Rlt_le, bpow_gt_0.
Qed.

Section Row.
Variables (L : libm F64) (z : list F64) (p : F64) (row : list (F64 * nat)).
Hypothesis (ne : row <> []) (few : INR (length row) <= 2 ^ 20).
Hypothesis pows : forall e, In e row -> exists r, is_num (m_pow L (fst e) p) r /\ / 2 ^ 200 <= r <= 2 ^ 200.
Variables (lo hi M : R).
Hypothesis vals : forall e, In e row -> exists r, is_num (nget z (snd e)) r /\ lo <= r <= hi.
Hypotheses (LM : - M <= lo) (HM : hi <= M) (MB : M <= 2 ^ 200).

Let n := INR (length row).
Let nu := n * u64.
Let w := map (fun e => n_div one (m_pow L (fst e) p)) row.
Let s := n_sum w.
Let wn (e : F64 * nat) : R := fr (n_div one (m_pow L (fst e) p)).
Let W := rsum (map wn row).
Let q (e : F64 * nat) : R := wn e / W.
Let zr (e : F64 * nat) : R := fr (nget z (snd e)).

Lemma n_ge1 : 1 <= n.
Proof using ne. exact (ge1 row ne). Qed.
Lemma nu_small : 0 < u64 <= nu /\ nu <= / 1000000.
Proof using ne few.
  pose proof n_ge1. pose proof u64_pos. unfold nu. split; [split; [auto|nra]|]. apply Rle_trans with (2 ^ 20 * u64); [apply Rmult_le_compat_r; [lra|exact few]|]. rewrite u64_val. simpl. lra.
Qed.
Lemma weight e : In e row -> is_num (n_div one (m_pow L (fst e) p)) (wn e) /\ / 2 ^ 200 <= wn e <= 2 ^ 200.
Proof using pows.
  intros H. destruct (pows e H) as (r & P & B). assert (Q : 0 < / 2 ^ 200) by (apply Rinv_0_lt_compat, pow_lt; lra).
  assert (I : / 2 ^ 200 <= 1 / r <= 2 ^ 200).
  { unfold Rdiv. rewrite Rmult_1_l. split; [apply Rinv_le; lra|]. rewrite <- (Rinv_inv (2 ^ 200)). apply Rinv_le; lra. }
  assert (E : is_num (n_div one (m_pow L (fst e) p)) (rnd64 (1 / r))).
  { apply is_div; auto; [apply is_one|lra|]. rewrite Rabs_pos_eq by lra. apply Rle_trans with (2 ^ 200); [lra|apply pow_big; lia]. }
  unfold wn. rewrite (num_fr _ _ E). split; auto. split; [apply rnd_pow_lo; [lia|lra]|apply rnd_pow_hi; [lia|lra]].
Qed.
Lemma total_weight : / 2 ^ 200 <= W <= 2 ^ 220.
Proof using pows ne few.
  assert (Q : 0 < / 2 ^ 200) by (apply Rinv_0_lt_compat, pow_lt; lra). split.
  - destruct (some_in row ne) as (e & E). apply Rle_trans with (wn e); [apply weight; auto|]. unfold W. apply (rsum_elem wn); auto.
    intros e' H'. destruct (weight e' H'). lra.
  - unfold W. apply Rle_trans with (rsum (map (fun _ => 0 * 0 + 2 ^ 200) row)); [apply rsum_map_le; intros e H; destruct (weight e H); lra|].
    rewrite (rsum_map_lin (fun _ => 0) 0 (2 ^ 200)). rewrite Rmult_0_l, Rplus_0_l. replace (2 ^ 220) with (2 ^ 20 * 2 ^ 200) by (rewrite <- pow_add; auto).
    apply Rmult_le_compat_r; [apply pow_le; lra|exact few].
Qed.
Lemma tiny_vs : n0 <= u64 * / 2 ^ 450.
Proof using. unfold n0, u64. rewrite <- bpow_neg, <- bpow_plus. apply bpow_le. lia. Qed.
Lemma inv_pow_le j k : (j <= k)%nat -> / 2 ^ k <= / 2 ^ j.
Proof using. intros H. apply Rinv_le; [apply pow_lt; lra|apply Rle_pow; [lra|auto]]. Qed.

Lemma sum_weight : exists S, is_num s S /\ Rabs (S - W) <= 3 * nu * W.
Proof using pows ne few.
  pose proof total_weight as TW. pose proof nu_small as NS. pose proof n_ge1 as N1. pose proof tiny_vs as TV. pose proof n0_pos as NP.
  assert (Q : 0 < / 2 ^ 200) by (apply Rinv_0_lt_compat, pow_lt; lra). assert (Q2 : / 2 ^ 450 <= / 2 ^ 200) by (apply inv_pow_le; lia).
  assert (NW : n0 <= u64 * W) by (apply Rle_trans with (1 := TV); apply Rmult_le_compat_l; lra).
  assert (AN : are_nums w (map wn row)) by (apply nums_map; intros e H; destruct (weight e H); eauto).
  assert (AS : asum (map wn row) = W). { unfold asum, W. rewrite map_map. f_equal. apply map_ext_in. intros e H. destruct (weight e H). apply Rabs_pos_eq. lra. }
  destruct (n_sum_sums w) as (k & K & SK). unfold w in K. rewrite map_length in K.
  assert (WB : 2 * W <= big). { apply Rle_trans with (2 ^ 221); [replace (2 ^ 221) with (2 * 2 ^ 220) by reflexivity; lra|apply pow_big; lia]. }
  assert (KI : INR k <= n) by (apply le_INR; auto). pose proof (pos_INR k).
  assert (EB : INR k * (u64 * (2 * W) + n0) <= 3 * nu * W).
  { apply Rle_trans with (n * (3 * (u64 * W))); [apply Rmult_le_compat; try lra; nra|]. unfold nu. lra. }
  destruct (summed_err W (2 * W) k ltac:(lra) ltac:(nra) k w s SK (map wn row) (le_n _) AN ltac:(lra)) as (S & IS & ES & _).
  exists S. split; auto. fold W in ES. lra.
Qed.

Definition term (e : F64 * nat) : F64 := n_mul (n_div (n_div one (m_pow L (fst e) p)) s) (nget z (snd e)).
Lemma share e : In e row -> 0 < q e <= 1 /\ / 2 ^ 420 <= q e.
Proof using pows ne few.
  intros H. destruct (weight e H) as (_ & B). pose proof total_weight as TW. assert (Q : 0 < / 2 ^ 200) by (apply Rinv_0_lt_compat, pow_lt; lra).
  assert (E : wn e <= W). { unfold W. apply (rsum_elem wn); auto. intros e' H'. destruct (weight e' H'). lra. }
  unfold q, Rdiv. assert (I : / 2 ^ 220 <= / W) by (apply Rinv_le; lra). assert (I2 : 0 < / 2 ^ 220) by (apply Rinv_0_lt_compat, pow_lt; lra).
  split; [split|].
  - apply Rmult_lt_0_compat; lra.
  - apply Rmult_le_reg_r with W; [lra|]. rewrite Rmult_assoc, Rinv_l by lra. lra.
  - replace (2 ^ 420) with (2 ^ 200 * 2 ^ 220) by (rewrite <- pow_add; auto). rewrite Rinv_mult. apply Rmult_le_compat; lra.
Qed.
Lemma shares_sum : rsum (map q row) = 1.
Proof using pows ne few.
  pose proof total_weight as TW. assert (Q : 0 < / 2 ^ 200) by (apply Rinv_0_lt_compat, pow_lt; lra).
  assert (E : rsum (map q row) = / W * W + INR (length row) * 0). { unfold W at 2. rewrite <- (rsum_map_lin wn (/ W) 0). f_equal. apply map_ext. intros e. unfold q. field. lra. }
  rewrite E. field. lra.
Qed.
Lemma normal_weight e : In e row -> exists v, is_num (n_div (n_div one (m_pow L (fst e) p)) s) v /\ 0 <= v /\ Rabs (v - q e) <= 5 * nu * q e.
Proof using pows ne few.
  intros H. destruct sum_weight as (S & IS & ES). destruct (weight e H) as (IW & BW). destruct (share e H) as (Q1 & Q2). pose proof total_weight as TW. pose proof nu_small as NS.
  assert (Q : 0 < / 2 ^ 200) by (apply Rinv_0_lt_compat, pow_lt; lra). pose proof tiny_vs as TV. assert (I450 : / 2 ^ 450 <= / 2 ^ 420) by (apply inv_pow_le; lia).
  assert (NQ : n0 <= u64 * q e) by (apply Rle_trans with (1 := TV); apply Rmult_le_compat_l; lra). pose proof n0_pos as NP.
  apply Rabs_le_inv in ES. assert (SP : 0 < S) by nra.
  assert (RW : Rabs (wn e / S - q e) <= 3.1 * nu * q e).
  { replace (wn e / S - q e) with (q e * ((W - S) / S)) by (unfold q; field; lra). rewrite Rabs_mult, (Rabs_pos_eq (q e)) by lra. rewrite (Rmult_comm (3.1 * nu)). apply Rmult_le_compat_l; [lra|].
    unfold Rdiv. rewrite Rabs_mult, (Rabs_pos_eq (/ S)) by (apply Rlt_le, Rinv_0_lt_compat; auto). apply Rmult_le_reg_r with S; auto. rewrite Rmult_assoc, Rinv_l, Rmult_1_r by lra. apply Rabs_le. nra. }
  apply Rabs_le_inv in RW. assert (QS : 0 <= wn e / S <= 2) by nra.
  exists (rnd64 (wn e / S)). split; [apply is_div; auto; [lra|]|split; [apply rnd64_nonneg; lra|]].
  - rewrite Rabs_pos_eq by lra. apply Rle_trans with (2 ^ 1); [simpl; lra|apply pow_big; lia].
  - pose proof (rnd64_close (wn e / S)) as C. rewrite (Rabs_pos_eq (wn e / S)) in C by lra. apply Rabs_le_inv in C.
    assert (NQ' : n0 <= 0.001 * (nu * q e)).
    { apply Rle_trans with (1 := TV). apply Rle_trans with (nu * / 2 ^ 450); [apply Rmult_le_compat_r; lra|]. rewrite <- Rmult_assoc, (Rmult_comm 0.001), Rmult_assoc. apply Rmult_le_compat_l; [lra|].
      assert (/ 2 ^ 450 <= 0.001 * / 2 ^ 420); [|lra]. replace 450%nat with (30 + 420)%nat by reflexivity. rewrite pow_add, Rinv_mult. apply Rmult_le_compat_r; [apply Rlt_le, Rinv_0_lt_compat, pow_lt; lra|]. simpl. lra. }
    assert (X0 : nu * q e <= 0.1 * q e) by (apply Rmult_le_compat_r; lra).
    assert (UW : u64 * (wn e / S) <= nu * (1.5 * q e)) by (apply Rmult_le_compat; lra).
    assert (X1 : nu * (1.5 * q e) = 1.5 * (nu * q e)) by ring. replace (3.1 * nu * q e) with (3.1 * (nu * q e)) in RW by ring. replace (5 * nu * q e) with (5 * (nu * q e)) by ring.
    apply Rabs_le. lra.
Qed.
Lemma M_nonneg : 0 <= M.
Proof using ne vals LM HM. destruct (some_in row ne) as (e & E). destruct (vals e E) as (v & _ & B). lra. Qed.
Lemma value e : In e row -> is_num (nget z (snd e)) (zr e) /\ lo <= zr e <= hi.
Proof using vals. intros H. destruct (vals e H) as (r & I & B). unfold zr. rewrite (num_fr _ _ I). auto. Qed.
Lemma term_close e : In e row -> is_num (term e) (fr (term e)) /\ Rabs (fr (term e) - q e * zr e) <= 7 * nu * M * q e + n0 /\ (0 <= lo -> 0 <= fr (term e)) /\ (zr e = 0 -> fr (term e) = 0).
Proof using pows ne few vals LM HM MB.
  intros H. destruct (normal_weight e H) as (v & IV & V0 & EV). destruct (value e H) as (IZ & BZ). destruct (share e H) as (Q1 & _). pose proof nu_small as NS. pose proof M_nonneg as M0.
  apply Rabs_le_inv in EV. assert (ZM : Rabs (zr e) <= M) by (apply Rabs_le; lra). assert (VB : v <= 1.1 * q e) by nra.
  assert (PB : Rabs (v * zr e) <= 1.1 * q e * M) by (rewrite Rabs_mult, (Rabs_pos_eq v) by auto; apply Rmult_le_compat; auto; apply Rabs_pos).
  assert (PB2 : 1.1 * q e * M <= 2 * M) by nra.
  assert (IT : is_num (term e) (rnd64 (v * zr e))).
  { apply is_mul; auto. apply Rle_trans with (2 * M); [lra|]. apply Rle_trans with (2 ^ 201); [replace (2 ^ 201) with (2 * 2 ^ 200) by reflexivity; lra|apply pow_big; lia]. }
  rewrite (num_fr _ _ IT). split; [auto|split; [|split]].
  - pose proof (rnd64_close (v * zr e)) as C. pose proof n0_pos.
    replace (rnd64 (v * zr e) - q e * zr e) with ((rnd64 (v * zr e) - v * zr e) + (v - q e) * zr e) by ring. eapply Rle_trans; [apply Rabs_triang|].
    assert (Rabs ((v - q e) * zr e) <= 5 * nu * q e * M) by (rewrite Rabs_mult; apply Rmult_le_compat; try apply Rabs_pos; auto; apply Rabs_le; lra).
    assert (U1 : u64 * Rabs (v * zr e) <= u64 * (1.1 * q e * M)) by (apply Rmult_le_compat_l; lra).
    assert (QM : 0 <= q e * M) by (apply Rmult_le_pos; lra).
    assert (U2 : Rabs (rnd64 (v * zr e) - v * zr e) <= u64 * Rabs (v * zr e) + n0) by lra. set (x := q e * M) in *.
    replace (5 * nu * q e * M) with (5 * nu * x) in * by (unfold x; ring). replace (7 * nu * M * q e) with (7 * nu * x) by (unfold x; ring).
    replace (u64 * (1.1 * q e * M)) with (1.1 * u64 * x) in U1 by (unfold x; ring). 
    assert (1.1 * u64 * x <= 2 * nu * x) by nra. lra.
  - intros L0. apply rnd64_nonneg. apply Rmult_le_pos; lra.
  - intros ->. rewrite Rmult_0_r. apply rnd64_0.
Qed.

(** the sum is close to the exact mean with the computed weights *)
Lemma row_close : exists r, is_num (n_sum (map term row)) r /\ Rabs (r - rsum (map (fun e => q e * zr e) row)) <= 10 * n * u64 * M + 4 * n * n0 /\ (0 <= lo -> 0 <= r) /\ (lo = 0 -> hi = 0 -> r = 0).
Proof using pows ne few vals LM HM MB.
  pose proof nu_small as NS. pose proof M_nonneg as M0. pose proof n_ge1 as N1. pose proof n0_pos as NP. pose proof shares_sum as SS.
  set (t := fun e => fr (term e)). set (T := 1.1 * M + n * n0). set (B := 2 * M + 3 * (n * n0)).
  assert (NM : 0 <= nu * M) by (apply Rmult_le_pos; lra). assert (NN : 0 <= n * n0) by (apply Rmult_le_pos; lra).
  assert (AN : are_nums (map term row) (map t row)) by (apply nums_map; intros e H; destruct (term_close e H); eauto).
  assert (ER : Rabs (rsum (map t row) - rsum (map (fun e => q e * zr e) row)) <= 7 * nu * M + n * n0).
  { rewrite rsum_map_minus. eapply Rle_trans; [apply rsum_asum|]. unfold asum. rewrite map_map.
    apply Rle_trans with (rsum (map (fun e => (7 * nu * M) * q e + n0) row)); [apply rsum_map_le; intros e H; destruct (term_close e H) as (_ & C & _); exact C|].
    rewrite (rsum_map_lin q), SS. unfold n. lra. }
  assert (AB : asum (map t row) <= T).
  { unfold asum. rewrite map_map. apply Rle_trans with (rsum (map (fun e => ((7 * nu + 1) * M) * q e + n0) row)).
    - apply rsum_map_le. intros e H. destruct (term_close e H) as (_ & C & _). destruct (value e H) as (_ & V). destruct (share e H) as (Q & _).
      replace (t e) with ((t e - q e * zr e) + q e * zr e) by ring. eapply Rle_trans; [apply Rabs_triang|].
      assert (Rabs (q e * zr e) <= q e * M) by (rewrite Rabs_mult, (Rabs_pos_eq (q e)) by lra; apply Rmult_le_compat_l; [lra|apply Rabs_le; lra]). unfold t. lra.
    - rewrite (rsum_map_lin q), SS. unfold T, n. nra. }
  destruct (n_sum_sums (map term row)) as (k & K & SK). rewrite map_length in K. assert (KI : INR k <= n) by (apply le_INR; auto). pose proof (pos_INR k) as K0.
  assert (BB : 0 <= B <= big).
  { assert (N20 : n * n0 <= 1). { apply Rle_trans with (2 ^ 20 * / 2 ^ 200); [apply Rmult_le_compat; try lra; [exact few|apply n0_tiny]|]. simpl. lra. }
    unfold B. split; [lra|]. apply Rle_trans with (2 ^ 203); [|apply pow_big; lia]. replace (2 ^ 203) with (8 * 2 ^ 200) by (simpl; lra). assert (1 <= 2 ^ 200) by (apply pow_R1_Rle; lra). lra. }
  assert (EB : INR k * (u64 * B + n0) <= 2 * nu * M + 1.1 * (n * n0)).
  { apply Rle_trans with (n * (u64 * B + n0)); [apply Rmult_le_compat_r; [nra|auto]|]. replace (n * (u64 * B + n0)) with (nu * B + n * n0) by (unfold nu; ring). unfold B. nra. }
  assert (TB : T + INR k * (u64 * B + n0) <= B).
  { unfold T. apply Rle_trans with (1.1 * M + n * n0 + (2 * nu * M + 1.1 * (n * n0))); [lra|]. unfold B. assert (2 * nu * M <= 0.5 * M) by nra. lra. }
  destruct (summed_err T B k BB TB k _ _ SK (map t row) (le_n _) AN AB) as (r & IR & RR & RP). apply Rabs_le_inv in RR. apply Rabs_le_inv in ER.
  exists r. split; [auto|split; [|split]].
  - replace (10 * n * u64 * M) with (10 * (nu * M)) by (unfold nu; ring). apply Rabs_le. lra.
  - intros L0. apply RP. intros v Hv. apply in_map_iff in Hv as (e & <- & H). destruct (term_close e H) as (_ & _ & P & _). apply P; auto.
  - intros L0 H0. apply (is_num_fun (n_sum (map term row))); auto. apply sum_zeros. intros x Hx. apply in_map_iff in Hx as (e & <- & H).
    destruct (term_close e H) as (I & _ & _ & Z). destruct (value e H) as (_ & V). rewrite Z in I by lra. exact I.
Qed.
Lemma row_range : exists r, is_num (n_sum (map term row)) r /\ lo - (10 * n * u64 * M + 4 * n * n0) <= r <= hi + (10 * n * u64 * M + 4 * n * n0) /\ (0 <= lo -> 0 <= r) /\ (lo = 0 -> hi = 0 -> r = 0).
Proof using pows ne few vals LM HM MB.
  destruct row_close as (r & I & C & P). exists r. split; [auto|split; [|auto]]. apply Rabs_le_inv in C. pose proof shares_sum as SS.
  assert (LO : rsum (map (fun e => lo * q e + 0) row) <= rsum (map (fun e => q e * zr e) row)) by (apply rsum_map_le; intros e H; destruct (value e H) as (_ & V); destruct (share e H) as (Q & _); nra).
  assert (HI : rsum (map (fun e => q e * zr e) row) <= rsum (map (fun e => hi * q e + 0) row)) by (apply rsum_map_le; intros e H; destruct (value e H) as (_ & V); destruct (share e H) as (Q & _); nra).
  rewrite (rsum_map_lin q) in LO, HI. rewrite SS in LO, HI. lra.
Qed.
End Row.

(** ** one grid point *)
Lemma map2_map {A B C D} (f : B -> C -> D) (g : A -> B) (h : A -> C) l : map2 f (map g l) (map h l) = map (fun e => f (g e) (h e)) l.
Proof. unfold map2. induction l as [|a l IH]; cbn; [auto|]. f_equal. exact IH. Qed.
Lemma idw_one_range (L : libm F64) z p row0 : let row := filter (fun e => Nat.ltb (snd e) (length z)) row0 in
  row <> [] -> INR (length row) <= 2 ^ 20 ->
  (forall e, In e row -> exists r, is_num (m_pow L (fst e) p) r /\ / 2 ^ 200 <= r <= 2 ^ 200) ->
  forall lo hi M, (forall e, In e row -> exists r, is_num (nget z (snd e)) r /\ lo <= r <= hi) -> - M <= lo -> hi <= M -> M <= 2 ^ 200 ->
  exists r, is_num (idw_one L z p row0) r /\ let e := 10 * INR (length row) * M / 2 ^ 53 + 4 * INR (length row) / 2 ^ 1074 in
    lo - e <= r <= hi + e /\ (0 <= lo -> 0 <= r) /\ (lo = 0 -> hi = 0 -> r = 0).
Proof.
  intros row NE FW PW lo hi M V LM HM MB. cbv zeta. unfold idw_one. fold row.
  assert (E : 10 * INR (length row) * M / 2 ^ 53 + 4 * INR (length row) / 2 ^ 1074 = 10 * INR (length row) * u64 * M + 4 * INR (length row) * n0).
  { rewrite n0_pow, u64_val, pow_IZR. unfold Rdiv. change (2 ^ Z.of_nat 53)%Z with (2 ^ 53)%Z. ring. }
  rewrite E. clear E. pose proof u64_pos. pose proof n0_pos. pose proof (pos_INR (length row)).
  destruct row as [|[d0 i0] row'] eqn:ER; [congruence|]. destruct (n_ltb d0 (n_lit 1 10)).
  - destruct (V (d0, i0) (or_introl eq_refl)) as (r & I & B). exists r. split; [exact I|]. assert (0 <= M) by lra.
    assert (0 <= 10 * INR (length ((d0, i0) :: row')) * u64 * M) by (repeat apply Rmult_le_pos; lra). assert (0 <= 4 * INR (length ((d0, i0) :: row')) * n0) by (repeat apply Rmult_le_pos; lra).
    split; [lra|split; intros; lra].
  - rewrite <- ER in *. destruct (row_range L z p row ltac:(congruence) FW PW lo hi M V LM HM MB) as (r & I & B). exists r. split; [|exact B].
    rewrite map_map, map2_map. exact I.
Qed.

(** ** the whole call *)
Lemma tree_call_get (L : libm F64) query X t qs z k eps p ub v : new_tree X = Ok t -> snd (tree_call L query t qs z k eps p ub) = Ok v ->
  length v = length qs /\ length z = length X /\ forall j d, (j < length qs)%nat -> nget v j = idw_one L z p (query X (get d qs j) k eps ub).
Proof.
  intros HT. assert (T : t = {| pts := X; cache := None |}). { unfold new_tree in HT. destruct X; [discriminate|]. destruct (forallb finite_pt _); [injection HT; auto|discriminate]. }
  subst t. unfold tree_call. cbn [pts cache]. destruct (Nat.eqb (length X) (length z)) eqn:EZ; [|discriminate]. cbn [negb]. apply Nat.eqb_eq in EZ.
  destruct (Nat.leb k 1); [discriminate|]. destruct qs as [|q0 qs'] eqn:EQ; [discriminate|]. rewrite <- EQ. destruct (forallb finite_pt qs); [|discriminate]. intros H. injection H as <-.
  unfold numba_idw_loop. rewrite !map_length. split; [auto|split; [auto|]]. intros j d Hj. unfold nget. rewrite map_map. rewrite (get_map _ d) by auto. reflexivity.
Qed.
