(** * Rain sums in binary64: proofs *)
From Coq Require Import List ZArith Bool Lia Arith Reals Lra Permutation.
From Flocq Require Import Core IEEE754.BinarySingleNaN.
From Verif Require Import Base Num NumF64 NumList RealSpec RealStat Ulp64 HaversineFloat_spec HaversineFloat_proofs HaversineFloat_proofs2 HaversineAcc_proofs FloatErr_spec FloatErr_proofs ReaggFloat_spec NearbyNb_model NearbyNb_spec NearbyNb_proofs RainSum_model RainSum_spec RainSum_proofs RainSumFloat_spec.
From Verif Require ReaggFloat_proofs IdwFloat_proofs.
Import ListNotations.
Local Open Scope R_scope.
Local Notation length := List.length.
Local Arguments bpow : simpl never.
Local Notation eta := (bpow radix2 (-1072)).
Local Notation isnum := (fun v : F64 => negb (n_isnan v)).

Definition fits (l : list F64) : Prop := INR (length l) <= 2 ^ 18 /\ rsum (map part (exactly l)) <= 2 ^ 900.
Lemma modest_fits l : modest l -> fits l.
Proof. intros (A & B). split; [exact A|]. apply Rle_trans with (1 := B). apply Rle_pow; [lra|lia]. Qed.
Lemma rate_num v : plain_rate v -> n_isnan v = false -> is_num v (part (f_val v)) /\ 0 <= part (f_val v).
Proof. intros [H|(r & I & P)] N; [congruence|]. unfold is_num in *. rewrite I. cbn [part]. auto. Qed.
Lemma rate_nan (v : F64) : n_isnan v = true -> part (f_val v) = 0.
Proof. destruct v; cbn; intros H; try discriminate; reflexivity. Qed.
Lemma rate_part v : plain_rate v -> 0 <= part (f_val v).
Proof. intros H. destruct (n_isnan v) eqn:E; [rewrite rate_nan by auto; lra|apply rate_num; auto]. Qed.
Lemma exactly_get l i : get (n_nan : XR) (exactly l) i = f_val (get n_nan l i).
Proof.
  unfold exactly. destruct (le_lt_dec (length l) i) as [L|L]; [|rewrite get_map with (d := n_nan : F64) by auto; reflexivity].
  unfold get. rewrite !nth_overflow by (rewrite ?map_length; auto). reflexivity.
Qed.
Lemma get_rate l i : (forall v, In v l -> plain_rate v) -> plain_rate (get n_nan l i).
Proof. intros H. destruct (le_lt_dec (length l) i) as [L|L]; [unfold get; rewrite nth_overflow by auto; left; reflexivity|]. apply H, nth_In. auto. Qed.

Lemma rsum_filter_le {A} (g : A -> R) (f : A -> bool) l : (forall x, In x l -> 0 <= g x) -> rsum (map g (filter f l)) <= rsum (map g l).
Proof.
  intros H. induction l as [|x l IH]; [cbn; lra|]. assert (P : 0 <= g x) by (apply H; left; auto). specialize (IH ltac:(intros; apply H; right; auto)).
  cbn [filter map]. rewrite RainSum_proofs.rsum_cons. destruct (f x); cbn [map]; rewrite ?RainSum_proofs.rsum_cons; lra.
Qed.
Lemma rsum_nonneg {A} (g : A -> R) l : (forall x, In x l -> 0 <= g x) -> 0 <= rsum (map g l).
Proof. intros H. induction l as [|x l IH]; [cbn; lra|]. cbn [map]. rewrite RainSum_proofs.rsum_cons. assert (0 <= g x) by (apply H; left; auto). specialize (IH ltac:(intros; apply H; right; auto)). lra. Qed.
Lemma rsum_drop {A} (g : A -> R) (f : A -> bool) l : (forall x, In x l -> f x = false -> g x = 0) -> rsum (map g (filter f l)) = rsum (map g l).
Proof.
  intros H. induction l as [|x l IH]; [reflexivity|]. specialize (IH ltac:(intros; apply H; [right; auto|auto])). cbn [filter map]. rewrite RainSum_proofs.rsum_cons.
  destruct (f x) eqn:E; cbn [map]; rewrite ?RainSum_proofs.rsum_cons; [lra|]. rewrite (H x (or_introl eq_refl) E). lra.
Qed.
Lemma map_get (l : list F64) : map (get n_nan l) (seq 0 (length l)) = l.
Proof. apply nth_ext with (n_nan : F64) (n_nan : F64); rewrite map_length, seq_length; [auto|]. intros i Hi. change (get n_nan (map (get n_nan l) (seq 0 (length l))) i = get n_nan l i). rewrite get_map_seq by auto. reflexivity. Qed.

(** a sum of measured samples *)
Lemma sum_nearly f (b : list F64) n : sums f -> (forall v, In v b -> plain_rate v) -> fits b -> n = measured b ->
  nearly n (rsum (map part (exactly b))) (f (filter isnum b)).
Proof.
  intros S H (M1 & M2) ->. destruct (S (filter isnum b)) as (k & K1 & K2).
  assert (E : rsum (map part (exactly b)) = rsum (map (fun v : F64 => part (f_val v)) (filter isnum b))).
  { unfold exactly. rewrite map_map. symmetry. apply rsum_drop. intros v _ N. apply rate_nan. apply negb_false_iff in N. exact N. }
  rewrite E in *. apply (ReaggFloat_proofs.summed_nearly k (filter isnum b)); auto.
  - unfold are_nums. assert (Q : forall l, (forall v, In v l -> plain_rate v /\ n_isnan v = false) -> Forall2 is_num l (map (fun v : F64 => part (f_val v)) l)).
    { clear. induction l as [|v l IH]; intros P; constructor; [apply rate_num; apply P; left; auto|apply IH; intros; apply P; right; auto]. }
    apply Q. intros v Hv. apply filter_In in Hv as [V1 V2]. split; [auto|]. apply negb_true_iff. exact V2.
  - intros x Hx. apply in_map_iff in Hx as (v & <- & Hv). apply filter_In in Hv as [V1 _]. apply rate_part. auto.
  - unfold measured. lia.
  - apply Rle_trans with (2 := M1). apply le_INR. unfold measured. clear. induction b; cbn [filter length]; [auto|]. destruct (negb _); cbn [length]; lia.
Qed.

Lemma eta_n0 : eta = 4 * n0.
Proof. unfold n0. replace (-1072)%Z with (2 + -1074)%Z by lia. rewrite bpow_plus. f_equal. Qed.
Lemma inv51 : / 2 ^ 51 = 4 * u64.
Proof. rewrite u64_val. simpl. lra. Qed.

(** a division by a number of at least one *)
Lemma nearly_div n S v c cr : nearly n S v -> 0 <= S <= 2 ^ 900 -> INR n <= 2 ^ 18 -> is_num c cr -> 1 <= cr -> nearly (Datatypes.S n) (S / cr) (n_div v c).
Proof.
  intros (s & I & E) HS HN IC C1. pose proof (pos_INR n) as N0. pose proof n0_pos as NP. pose proof u64_pos as UP. assert (ic : 0 < / cr <= 1) by (split; [apply Rinv_0_lt_compat; lra|rewrite <- Rinv_1; apply Rinv_le; lra]).
  unfold Rdiv in E. rewrite inv51, eta_n0 in E.
  set (T := S / cr). assert (T0 : 0 <= T <= S) by (unfold T, Rdiv; split; [apply Rmult_le_pos; lra|]; rewrite <- (Rmult_1_r S) at 2; apply Rmult_le_compat_l; lra).
  assert (Q : Rabs (s / cr - T) <= INR n * (4 * (u64 * T) + 4 * n0)).
  { unfold T, Rdiv. rewrite <- Rmult_minus_distr_r, Rabs_mult, (Rabs_pos_eq (/ cr)) by lra. apply Rle_trans with (INR n * (S * (4 * u64) + 4 * n0) * / cr); [apply Rmult_le_compat_r; lra|].
    rewrite Rmult_assoc. apply Rmult_le_compat_l; [lra|]. assert (n0 * / cr <= n0 * 1) by (apply Rmult_le_compat_l; lra). replace ((S * (4 * u64) + 4 * n0) * / cr) with (4 * (u64 * (S * / cr)) + 4 * (n0 * / cr)) by ring. lra. }
  assert (U0 : 0 <= u64 * T) by (apply Rmult_le_pos; lra).
  assert (NU : INR n * (4 * (u64 * T) + 4 * n0) <= 0.01 * T + 2 ^ 20 * n0).
  { apply Rle_trans with (2 ^ 18 * (4 * (u64 * T) + 4 * n0)); [apply Rmult_le_compat_r; lra|]. assert (2 ^ 18 * (4 * u64) <= 0.01) by (rewrite u64_val; simpl; lra).
    assert (2 ^ 18 * (4 * u64) * T <= 0.01 * T) by (apply Rmult_le_compat_r; lra). replace (2 ^ 20) with (4 * 2 ^ 18) by (simpl; lra). lra. }
  assert (NS : 2 ^ 20 * n0 <= / 2 ^ 100). { rewrite IdwFloat_proofs.n0_pow. replace 1074%nat with (20 + 1054)%nat by reflexivity. rewrite (pow_add 2 20 1054), Rinv_mult, <- Rmult_assoc, Rinv_r, Rmult_1_l by (apply pow_nonzero; lra). apply IdwFloat_proofs.inv_pow_le. lia. }
  assert (NB : / 2 ^ 100 <= 1) by (rewrite <- Rinv_1; apply Rinv_le; [lra|apply pow_R1_Rle; lra]).
  apply Rabs_le_inv in Q. assert (AB : Rabs (s / cr) <= 1.01 * T + 2 ^ 20 * n0) by (apply Rabs_le; lra).
  exists (rnd64 (s / cr)). split.
  - apply is_div; auto; [lra|]. apply Rle_trans with (1 := AB). apply Rle_trans with (2 ^ 902); [|apply IdwFloat_proofs.pow_big; lia]. replace (2 ^ 902) with (4 * 2 ^ 900) by (change 902%nat with (2 + 900)%nat; rewrite pow_add; simpl (2 ^ 2); lra). assert (1 <= 2 ^ 900) by (apply pow_R1_Rle; lra).
    set (B := 2 ^ 900) in *. clearbody B. lra.
  - pose proof (rnd64_close (s / cr)) as C. assert (CU : u64 * Rabs (s / cr) <= u64 * (1.01 * T + 2 ^ 20 * n0)) by (apply Rmult_le_compat_l; lra).
    assert (UN : u64 * (2 ^ 20 * n0) <= n0). { rewrite <- Rmult_assoc. rewrite <- (Rmult_1_l n0) at 2. apply Rmult_le_compat_r; [lra|]. rewrite u64_val. simpl. lra. }
    rewrite Rmult_plus_distr_l in CU. replace (u64 * (1.01 * T)) with (1.01 * (u64 * T)) in CU by ring.
    unfold Rdiv at 2. rewrite inv51, eta_n0, S_INR. replace ((INR n + 1) * (T * (4 * u64) + 4 * n0)) with (INR n * (4 * (u64 * T) + 4 * n0) + (4 * (u64 * T) + 4 * n0)) by ring.
    apply Rabs_le_inv in C. apply Rabs_le. lra.
Qed.

(** ** bins *)
Lemma filter_map {A B} (g : A -> B) (f : B -> bool) l : filter f (map g l) = map g (filter (fun x => f (g x)) l).
Proof. induction l as [|x l IH]; [reflexivity|]. cbn [map filter]. destruct (f (g x)); cbn [map]; rewrite IH; reflexivity. Qed.
Lemma filter_len {A} (f : A -> bool) l : (length (filter f l) <= length l)%nat.
Proof. induction l as [|x l IH]; cbn [filter length]; [auto|]. destruct (f x); cbn [length]; lia. Qed.

Definition slice (times : list Z) (l : list F64) (a b : Z) : list F64 := map (get n_nan l) (filter (during times a b) (seq 0 (length times))).
Lemma slice_bin w times l n : (0 < w)%Z -> length l = length times -> let f := (bin_label w times 0 + w * Z.of_nat n)%Z in
  filter isnum (bin_values w times l n) = filter isnum (slice times l f (f + w)).
Proof. intros HW E f. rewrite (values_during w times l n HW E). unfold slice. rewrite filter_map, filter_and. reflexivity. Qed.
Lemma slice_sum times l a b : rsum (map part (exactly (slice times l a b))) = sum_in times (exactly l) a b.
Proof.
  unfold sum_in. rewrite rsum_if. unfold slice, exactly at 1. rewrite !map_map. f_equal. apply map_ext. intros i. rewrite exactly_get. reflexivity.
Qed.
Lemma slice_measured times l a b : measured (slice times l a b) = measured_in times l a b.
Proof. unfold measured, slice, measured_in. rewrite filter_map, map_length, filter_and. reflexivity. Qed.
Lemma slice_rates times l a b : (forall v, In v l -> plain_rate v) -> forall v, In v (slice times l a b) -> plain_rate v.
Proof. intros H v Hv. apply in_map_iff in Hv as (i & <- & _). apply get_rate. exact H. Qed.
Lemma all_sum (l : list F64) : rsum (map part (exactly l)) = rsum (map (fun i => part (f_val (get n_nan l i))) (seq 0 (length l))).
Proof. rewrite <- (map_get l) at 1. unfold exactly. rewrite !map_map. reflexivity. Qed.
Lemma slice_modest times l a b : length l = length times -> (forall v, In v l -> plain_rate v) -> fits l -> fits (slice times l a b).
Proof.
  intros E H (M1 & M2). split.
  - apply Rle_trans with (2 := M1). apply le_INR. unfold slice. rewrite map_length. apply Nat.le_trans with (1 := filter_len _ _). rewrite seq_length. lia.
  - apply Rle_trans with (2 := M2). rewrite (all_sum l), E. unfold slice, exactly. rewrite !map_map. apply (rsum_filter_le (fun i => part (f_val (get n_nan l i)))). intros i _. apply rate_part, get_rate, H.
Qed.

Lemma sums_by_nearly f w times l a N : (0 < w)%Z -> ascending times -> times <> [] -> length l = length times -> bins w times a N -> sums f -> (forall v, In v l -> plain_rate v) -> fits l ->
  length (sums_by f w times l) = N /\ forall n, (n < N)%nat -> let b := (a + w * Z.of_nat n)%Z in
  nearly (measured_in times l b (b + w)) (sum_in times (exactly l) b (b + w)) (get n_nan (sums_by f w times l) n).
Proof.
  intros HW HA HN E B S H M. destruct (bins_unique w times HW HN a N _ _ B (bins_here w times HW HA HN)) as [-> ->].
  split; [unfold sums_by, resample; rewrite map_length, seq_length; reflexivity|]. intros n Hn b. unfold sums_by, resample. rewrite get_map_seq by auto.
  rewrite slice_bin by auto. fold b. rewrite <- slice_sum, <- slice_measured.
  apply sum_nearly; auto; [apply slice_rates; auto|apply slice_modest; auto].
Qed.
Lemma sum_in_bounds times l a b : length l = length times -> (forall v, In v l -> plain_rate v) -> fits l -> 0 <= sum_in times (exactly l) a b <= 2 ^ 900.
Proof.
  intros E H M. rewrite <- slice_sum. destruct (slice_modest times l a b E H M) as (_ & M2). split; [|exact M2].
  unfold exactly. rewrite map_map. apply rsum_nonneg. intros v Hv. apply rate_part. eapply slice_rates; eauto.
Qed.
Lemma measured_few times l a b : length l = length times -> fits l -> INR (measured_in times l a b) <= 2 ^ 18.
Proof.
  intros E (M1 & _). apply Rle_trans with (2 := M1). apply le_INR. unfold measured_in. apply Nat.le_trans with (1 := filter_len _ _). rewrite seq_length. lia.
Qed.

Lemma rain_sums_float f w c cr times l a N : (0 < w)%Z -> is_num c cr -> 1 <= cr -> ascending times -> times <> [] -> length l = length times -> bins w times a N -> sums f -> (forall v, In v l -> plain_rate v) -> fits l ->
  length (sums_by f w times l) = N /\ forall n, (n < N)%nat -> let b := (a + w * Z.of_nat n)%Z in
  nearly (Datatypes.S (measured_in times l b (b + w))) (sum_in times (exactly l) b (b + w) / cr) (n_div (get n_nan (sums_by f w times l) n) c).
Proof.
  intros HW IC C1 HA HN E B S H M. destruct (sums_by_nearly f w times l a N HW HA HN E B S H M) as (L & K). split; [exact L|]. intros n Hn b.
  apply nearly_div; auto; [apply K; auto|apply sum_in_bounds; auto|apply measured_few; auto].
Qed.

Lemma rain_means_float f w times l a N : (0 < w)%Z -> ascending times -> times <> [] -> length l = length times -> bins w times a N -> sums f -> (forall v, In v l -> plain_rate v) -> fits l ->
  forall n, (n < N)%nat -> let b := (a + w * Z.of_nat n)%Z in let k := measured_in times l b (b + w) in (0 < k)%nat ->
  nearly (Datatypes.S k) (sum_in times (exactly l) b (b + w) / INR k) (n_div (get n_nan (sums_by f w times l) n) (n_ofZ (Z.of_nat k))).
Proof.
  intros HW HA HN E B S H M n Hn b k Hk. destruct (sums_by_nearly f w times l a N HW HA HN E B S H M) as (_ & K).
  pose proof (measured_few times l b (b + w) E M) as F. fold k in F.
  apply nearly_div; [apply K; auto|apply sum_in_bounds; auto|exact F| |apply (le_INR 1); lia].
  rewrite INR_IZR_INZ. apply num_ofZ. rewrite INR_IZR_INZ in F. rewrite (pow_IZR 2 18) in F. apply le_IZR in F. assert (2 ^ Z.of_nat 18 <= 2 ^ 53)%Z by (apply Z.pow_le_mono_r; lia). lia.
Qed.

(** ** accumulation *)
Definition quotient (c : F64) (l : list F64) : list F64 := map (fun v => n_div v c) l.
Lemma quotient_rate c cr v : is_num c cr -> 1 <= cr -> plain_rate v -> part (f_val v) <= 2 ^ 900 ->
  n_isnan (n_div v c) = n_isnan v /\ plain_rate (n_div v c) /\ Rabs (part (f_val (n_div v c)) - part (f_val v) / cr) <= u64 * (part (f_val v) / cr) + n0 /\ (n_isnan v = true -> part (f_val (n_div v c)) = 0).
Proof.
  intros IC C1 H B. assert (ic : 0 < / cr <= 1) by (split; [apply Rinv_0_lt_compat; lra|rewrite <- Rinv_1; apply Rinv_le; lra]). pose proof n0_pos as NP. pose proof u64_pos as UP.
  destruct (n_isnan v) eqn:E.
  - assert (V : v = n_nan) by (destruct v; cbn in E; try discriminate; reflexivity). assert (D : n_div v c = n_nan) by (rewrite V; change (n_div (n_nan : F64) c) with (f_div (n_nan : F64) c); destruct c; reflexivity).
    rewrite D, V. change (part (f_val (n_nan : F64))) with 0. split; [reflexivity|]. split; [left; reflexivity|]. split; [|reflexivity]. unfold Rdiv. rewrite Rmult_0_l, Rminus_0_r, Rabs_R0. lra.
  - destruct (rate_num v H E) as (I & P). set (x := part (f_val v)) in *.
    assert (Q0 : 0 <= x / cr <= x) by (unfold Rdiv; split; [apply Rmult_le_pos; lra|]; rewrite <- (Rmult_1_r x) at 2; apply Rmult_le_compat_l; lra).
    assert (D : is_num (n_div v c) (rnd64 (x / cr))). { apply is_div; auto; [lra|]. rewrite Rabs_pos_eq by lra. apply Rle_trans with (2 ^ 900); [lra|apply IdwFloat_proofs.pow_big; lia]. }
    assert (FV : f_val (n_div v c) = XFin (rnd64 (x / cr))) by exact D.
    split; [destruct (n_div v c); cbn in FV; try discriminate FV; reflexivity|]. split; [right; exists (rnd64 (x / cr)); split; [exact D|apply rnd64_nonneg; lra]|].
    split; [|discriminate]. rewrite FV. cbn [part]. pose proof (rnd64_close (x / cr)) as C. rewrite (Rabs_pos_eq (x / cr)) in C by lra. exact C.
Qed.

Lemma running_get (l : list F64) : forall acc i, (i < length l)%nat -> get n_nan (running_total acc l) i = fold_left (@n_add F64) (filter isnum (firstn (S i) l)) acc.
Proof.
  induction l as [|v l IH]; intros acc i Hi; [cbn in Hi; lia|]. cbn [running_total]. destruct i as [|i].
  - cbn [firstn filter]. destruct (n_isnan v); reflexivity.
  - change (get n_nan (?x :: ?t) (S i)) with (get n_nan t i). rewrite firstn_cons. cbn [length] in Hi.
    cbn [filter]. destruct (n_isnan v); cbn [negb]; unfold get in *; cbn [nth]; rewrite IH by lia; reflexivity.
Qed.
Lemma firstn_rates k (l : list F64) : (forall v, In v l -> plain_rate v) -> forall v, In v (firstn k l) -> plain_rate v.
Proof. intros H v Hv. apply H. rewrite <- (firstn_skipn k l). apply in_or_app. left. exact Hv. Qed.
Lemma firstn_modest k (l : list F64) : (forall v, In v l -> plain_rate v) -> fits l -> fits (firstn k l).
Proof.
  intros H (M1 & M2). split.
  - apply Rle_trans with (2 := M1). apply le_INR. rewrite firstn_length. lia.
  - apply Rle_trans with (2 := M2). rewrite <- (firstn_skipn k l) at 2. unfold exactly. rewrite !map_app, RealStat.rsum_app.
    assert (0 <= rsum (map part (map (fun v : F64 => f_val v : XR) (skipn k l)))); [|lra]. rewrite map_map. apply rsum_nonneg. intros v Hv. apply rate_part, H. rewrite <- (firstn_skipn k l). apply in_or_app. right. exact Hv.
Qed.

(** the quotients of measured samples add up to the quotient of the sum, nearly *)
Lemma quotient_sum c cr l : is_num c cr -> 1 <= cr -> (forall v, In v l -> plain_rate v /\ part (f_val v) <= 2 ^ 900) ->
  let S := rsum (map part (exactly l)) / cr in
  measured (quotient c l) = measured l /\ (forall v, In v (quotient c l) -> plain_rate v) /\ 0 <= S /\
  Rabs (rsum (map part (exactly (quotient c l))) - S) <= u64 * S + INR (measured l) * n0.
Proof.
  intros IC C1. pose proof n0_pos as NP. pose proof u64_pos as UP. assert (ic : 0 < / cr <= 1) by (split; [apply Rinv_0_lt_compat; lra|rewrite <- Rinv_1; apply Rinv_le; lra]).
  induction l as [|v l IH]; intros H; cbv zeta.
  - split; [reflexivity|]. split; [intros v []|]. cbn [exactly quotient map]. change (rsum []) with 0. unfold Rdiv. rewrite Rmult_0_l, Rminus_0_r, Rabs_R0. cbn [measured filter length INR]. lra.
  - destruct (IH ltac:(intros; apply H; right; auto)) as (A1 & A2 & A3 & A4). destruct (H v (or_introl eq_refl)) as (P1 & P2). destruct (quotient_rate c cr v IC C1 P1 P2) as (B1 & B2 & B3 & B4).
    pose proof (rate_part v P1) as PV. set (s := rsum (map part (exactly l))) in *.
    assert (E1 : rsum (map part (exactly (v :: l))) = part (f_val v) + s) by reflexivity. assert (E2 : rsum (map part (exactly (quotient c (v :: l)))) = part (f_val (n_div v c)) + rsum (map part (exactly (quotient c l)))) by reflexivity.
    rewrite E1, E2. clear E1 E2. split; [unfold measured, quotient in *; cbn [map filter]; rewrite B1; destruct (n_isnan v); cbn [negb length]; rewrite A1; reflexivity|].
    split; [intros x [<-|Hx]; [exact B2|apply A2; exact Hx]|]. unfold Rdiv in *. rewrite Rmult_plus_distr_r. assert (0 <= part (f_val v) * / cr) by (apply Rmult_le_pos; lra). split; [lra|].
    unfold measured in *. cbn [filter]. destruct (n_isnan v) eqn:N; cbn [negb length].
    + rewrite (B4 eq_refl), (rate_nan v N). apply Rabs_le_inv in A4. apply Rabs_le. rewrite Rmult_0_l, !Rplus_0_l. lra.
    + rewrite S_INR. apply Rabs_le_inv in A4, B3. apply Rabs_le. rewrite Rmult_plus_distr_l, Rmult_plus_distr_r. lra.
Qed.

Lemma part_le (l : list F64) v : (forall v, In v l -> plain_rate v) -> In v l -> part (f_val v) <= rsum (map part (exactly l)).
Proof.
  intros H. induction l as [|x l IH]; [intros []|]; intros [E|Hv]; unfold exactly; cbn [map]; rewrite RainSum_proofs.rsum_cons; fold (exactly l).
  - rewrite <- E. assert (0 <= rsum (map part (exactly l))); [|lra]. unfold exactly. rewrite map_map. apply rsum_nonneg. intros y Hy. apply rate_part, H. right. auto.
  - pose proof (rate_part x (H x (or_introl eq_refl))). specialize (IH ltac:(intros; apply H; right; auto) Hv). lra.
Qed.
Lemma firstn_map' {A B} (g : A -> B) k l : firstn k (map g l) = map g (firstn k l).
Proof. apply firstn_map. Qed.

Lemma accumulation_float c cr l i : is_num c cr -> 1 <= cr -> (forall v, In v l -> plain_rate v) -> modest l -> (i < length l)%nat ->
  let b := firstn (S i) l in nearly (2 * measured b) (rsum (map part (exactly b)) / cr) (get n_nan (accumulation c l) i).
Proof.
  intros IC C1 H M Hi b. pose proof n0_pos as NP. pose proof u64_pos as UP. pose proof (modest_fits l M) as F.
  assert (MB : rsum (map part (exactly b)) <= 2 ^ 899).
  { apply Rle_trans with (2 := proj2 M). unfold b. rewrite <- (firstn_skipn (S i) l) at 2. unfold exactly. rewrite !map_app, RealStat.rsum_app.
    assert (0 <= rsum (map part (map (fun v : F64 => f_val v : XR) (skipn (S i) l)))); [|lra]. rewrite map_map. apply rsum_nonneg. intros v Hv. apply rate_part, H. rewrite <- (firstn_skipn (S i) l). apply in_or_app. right. exact Hv. }
  assert (HB : forall v, In v b -> plain_rate v) by (apply firstn_rates; auto).
  assert (P9 : 2 * 2 ^ 899 = 2 ^ 900) by (rewrite tech_pow_Rmult; reflexivity). assert (P8 : 1 <= 2 ^ 899) by (apply pow_R1_Rle; lra).
  destruct (quotient_sum c cr b IC C1) as (Q1 & Q2 & Q3 & Q4).
  { intros v Hv. split; [auto|]. pose proof (part_le b v HB Hv). set (T := 2 ^ 899) in *. lra. }
  set (s := rsum (map part (exactly b))) in *. set (q := rsum (map part (exactly (quotient c b)))) in *. set (m := measured b) in *.
  assert (LB : INR (length b) <= 2 ^ 18) by (apply Rle_trans with (2 := proj1 M); apply le_INR; unfold b; rewrite firstn_length; lia).
  assert (MF : INR m <= 2 ^ 18) by (apply Rle_trans with (2 := LB); apply le_INR, filter_len). pose proof (pos_INR m) as M0.
  assert (ic : 0 < / cr <= 1) by (split; [apply Rinv_0_lt_compat; lra|rewrite <- Rinv_1; apply Rinv_le; lra]).
  assert (S0 : s / cr <= 2 ^ 899). { apply Rle_trans with (2 := MB). unfold Rdiv. assert (SS : 0 <= s) by (unfold s, exactly; rewrite map_map; apply rsum_nonneg; intros v Hv; apply rate_part, HB, Hv). rewrite <- (Rmult_1_r s) at 2. apply Rmult_le_compat_l; lra. }
  set (T := s / cr) in *. assert (U0 : 0 <= u64 * T) by (apply Rmult_le_pos; lra). assert (UT : u64 * T <= 0.01 * T) by (apply Rmult_le_compat_r; [lra|]; rewrite u64_val; simpl; lra).
  assert (N1 : INR m * n0 <= 2 ^ 18 * n0) by (apply Rmult_le_compat_r; lra).
  assert (N2 : 2 ^ 18 * n0 <= 0.1). { rewrite IdwFloat_proofs.n0_pow. replace 1074%nat with (22 + 1052)%nat by reflexivity. rewrite (pow_add 2 22 1052), Rinv_mult, <- Rmult_assoc. apply Rle_trans with (0.1 * / 2 ^ 1052); [apply Rmult_le_compat_r; [apply Rlt_le, Rinv_0_lt_compat, pow_lt; lra|simpl; lra]|].
    assert (/ 2 ^ 1052 <= 1) by (rewrite <- Rinv_1; apply Rinv_le; [lra|apply pow_R1_Rle; lra]). lra. }
  apply Rabs_le_inv in Q4.
  assert (FQ : fits (quotient c b)). { split; [unfold quotient; rewrite map_length; exact LB|]. fold q. set (P := 2 ^ 899) in *. lra. }
  destruct (sum_nearly (@n_sum F64) (quotient c b) m n_sum_sums Q2 FQ ltac:(symmetry; exact Q1)) as (v & I & E). fold q in E.
  unfold accumulation. rewrite running_get by (rewrite map_length; auto). rewrite firstn_map'. fold (quotient c (firstn (S i) l)). fold b.
  exists v. split; [exact I|]. unfold Rdiv in *. rewrite inv51, eta_n0 in *. rewrite mult_INR. change (INR 2) with (1 + 1).
  assert (E1 : INR m * (q * (4 * u64)) <= INR m * ((1.01 * T + INR m * n0) * (4 * u64))) by (apply Rmult_le_compat_l; [lra|]; apply Rmult_le_compat_r; lra).
  assert (E2 : INR m * n0 * (4 * u64) <= n0). { apply Rle_trans with (2 ^ 18 * n0 * (4 * u64)); [apply Rmult_le_compat_r; lra|]. rewrite Rmult_comm, <- Rmult_assoc. rewrite <- (Rmult_1_l n0) at 2. apply Rmult_le_compat_r; [lra|]. rewrite u64_val. simpl. lra. }
  assert (E3 : INR m * (INR m * n0 * (4 * u64)) <= INR m * n0) by (apply Rmult_le_compat_l; lra).
  assert (E4 : u64 * T <= INR m * (u64 * T) \/ T = 0 /\ INR m = 0).
  { destruct m as [|k] eqn:Em; [right|left; rewrite S_INR; pose proof (pos_INR k); assert (0 <= INR k * (u64 * T)) by (apply Rmult_le_pos; lra); lra]. split; [|reflexivity].
    unfold T. assert (s = 0); [|unfold Rdiv; rewrite H0; ring]. unfold s, exactly. rewrite map_map. rewrite <- (rsum_drop _ isnum); [|intros x _ N; apply rate_nan; apply negb_false_iff in N; exact N].
    unfold m, measured in Em. destruct (filter isnum b); [reflexivity|discriminate]. }
  set (X := INR m * (u64 * T)) in *. set (Y := INR m * n0) in *.
  replace (INR m * ((1.01 * T + Y) * (4 * u64))) with (4.04 * X + INR m * (Y * (4 * u64))) in E1 by (unfold X; lra). replace (INR m * (q * (4 * u64) + 4 * n0)) with (INR m * (q * (4 * u64)) + 4 * Y) in E by (unfold Y; ring).
  replace ((1 + 1) * INR m * (T * (4 * u64) + 4 * n0)) with (8 * X + 8 * Y) by (unfold X, Y; ring). apply Rabs_le_inv in E. apply Rabs_le.
  assert (Y0 : 0 <= Y) by (apply Rmult_le_pos; lra). assert (X0 : 0 <= X) by (apply Rmult_le_pos; lra).
  destruct E4 as [E4|(E4 & E5)]; [lra|]. assert (u64 * T = 0) by (rewrite E4; ring). lra.
Qed.

(** ** the functions of the model *)
Lemma rain_sums_model w c cr times l a N : (0 < w)%Z -> is_num c cr -> 1 <= cr -> ascending times -> times <> [] -> length l = length times -> bins w times a N -> (forall v, In v l -> plain_rate v) -> modest l ->
  length (rain_sums w c times l) = N /\ forall n, (n < N)%nat -> let b := (a + w * Z.of_nat n)%Z in
  nearly (S (measured_in times l b (b + w))) (sum_in times (exactly l) b (b + w) / cr) (get n_nan (rain_sums w c times l) n).
Proof.
  intros HW IC C1 HA HN E B H M. destruct (rain_sums_float (@n_sum F64) w c cr times l a N HW IC C1 HA HN E B n_sum_sums H (modest_fits l M)) as (L & K).
  change (rain_sums w c times l) with (map (fun v : F64 => n_div v c) (sums_by (@n_sum F64) w times l)). split; [rewrite map_length; exact L|]. intros n Hn b. rewrite get_map with (d := n_nan : F64) by (rewrite L; auto). apply K. exact Hn.
Qed.
Lemma rain_means_model w times l a N : (0 < w)%Z -> ascending times -> times <> [] -> length l = length times -> bins w times a N -> (forall v, In v l -> plain_rate v) -> modest l ->
  length (rain_means w times l) = N /\ forall n, (n < N)%nat -> let b := (a + w * Z.of_nat n)%Z in let k := measured_in times l b (b + w) in (0 < k)%nat ->
  nearly (S k) (sum_in times (exactly l) b (b + w) / INR k) (get n_nan (rain_means w times l) n).
Proof.
  intros HW HA HN E B H M. pose proof (rain_means_float (@n_sum F64) w times l a N HW HA HN E B n_sum_sums H (modest_fits l M)) as K.
  destruct (sums_by_nearly (@n_sum F64) w times l a N HW HA HN E B n_sum_sums H (modest_fits l M)) as (L & _).
  destruct (bins_unique w times HW HN a N _ _ B (bins_here w times HW HA HN)) as [EA EN].
  split; [rewrite <- L; unfold rain_means, sums_by, resample; rewrite !map_length; reflexivity|]. intros n Hn b k Hk. specialize (K n Hn Hk). fold b in K. fold k in K.
  replace (get n_nan (rain_means w times l) n) with (n_div (get n_nan (sums_by (@n_sum F64) w times l) n) (n_ofZ (Z.of_nat k))); [exact K|].
  unfold rain_means, sums_by, resample. rewrite EN in Hn. rewrite !get_map_seq by auto. unfold nan_mean, n_mean. f_equal. f_equal. f_equal.
  rewrite slice_bin by auto. rewrite <- EA. fold b. unfold k. rewrite <- slice_measured. reflexivity.
Qed.
