(** * Rain metrics in float64: distance to the exact values *)
From Coq Require Import Reals Lra Lia ZArith Bool Psatz List Permutation.
From Flocq Require Import Core Relative IEEE754.BinarySingleNaN.
From Verif Require Import Base Num NumF64 NumList NpOps RealStat Libm Libm64 Ulp64 Stats_model Stats_spec Stats_proofs Stats_proofs2 Stats_proofs3 HaversineFloat_spec HaversineFloat_proofs HaversineFloat_proofs2 HaversineAcc_proofs FloatErr_spec FloatErr_proofs IdwFloat_proofs StatsErr_spec.
Import ListNotations.
Local Open Scope R_scope.
Local Arguments bpow : simpl never.

Lemma is_abs (x : F64) r : is_num x r -> is_num (n_abs x) (Rabs r).
Proof. intros H. pose proof (val_abs _ F64sem x) as V. change (f_val (n_abs x) = xabs (f_val x)) in V. unfold is_num. rewrite V, H. reflexivity. Qed.
Lemma rsum_map_nonneg {A} (f : A -> R) l : (forall e, In e l -> 0 <= f e) -> 0 <= rsum (map f l).
Proof. intros H. pose proof (rsum_map_le (fun _ => 0) f l H) as E. replace (rsum (map (fun _ => 0) l)) with 0 in E; [auto|]. clear. induction l; cbn; [auto|]. unfold rsum in IHl. lra. Qed.
(** sums of close terms are close *)
Lemma sum_close {A} (f g : A -> R) e n l : (forall a, In a l -> 0 <= f a) -> (forall a, In a l -> close e n (f a) (g a)) -> close e (INR (length l) * n) (rsum (map f l)) (rsum (map g l)).
Proof.
  induction l as [|a l IH]; intros F H; cbn [map rsum fold_right length].
  - split; cbn; lra.
  - fold (rsum (map f l)) (rsum (map g l)). rewrite S_INR. replace ((INR (length l) + 1) * n) with (n + INR (length l) * n) by ring.
    apply close_add; [apply F; left; auto|apply rsum_map_nonneg; intros; apply F; right; auto|apply H; left; auto|apply IH; intros; [apply F|apply H]; right; auto].
Qed.

(** ** a mean in any order *)
Lemma mean_close {A} (f : A -> F64) (x : A -> R) l e m : l <> [] -> INR (length l) <= 2 ^ 20 -> mean_of (map f l) m -> 0 <= e <= / 1000 ->
  (forall a, In a l -> exists v, is_num (f a) v /\ close e n0 (x a) v /\ 0 <= x a <= 2 ^ 500) ->
  exists v, is_num m v /\ close (e + 4 * INR (length l) * u64) (9 * n0) (rmean (map x l)) v.
Proof.
  intros NE FW (k & s & K & SM & ->) E H. rewrite map_length in *. set (N := INR (length l)) in *. pose proof (ge1 l NE) as N1. fold N in N1.
  pose proof u64_pos as UP. pose proof n0_pos as NP. assert (KN : INR k <= N) by (apply le_INR; auto). pose proof (pos_INR k) as K0.
  assert (NU : N * u64 <= / 1000000). { apply Rle_trans with (2 ^ 20 * u64); [apply Rmult_le_compat_r; lra|]. rewrite u64_val. simpl. lra. }
  set (y := fun a => fr (f a)). assert (Y : forall a, In a l -> is_num (f a) (y a) /\ close e n0 (x a) (y a) /\ 0 <= x a <= 2 ^ 500).
  { intros a I. destruct (H a I) as (v & V & C & B). unfold y. rewrite (num_fr _ _ V). auto. }
  assert (AN : are_nums (map f l) (map y l)) by (apply nums_map; intros a I; destruct (Y a I); eauto).
  assert (XS : 0 <= rsum (map x l) <= 2 ^ 520).
  { split; [apply rsum_map_nonneg; intros a I; destruct (Y a I) as (_ & _ & B); lra|]. apply Rle_trans with (rsum (map (fun _ => 0 * 0 + 2 ^ 500) l)).
    - apply rsum_map_le. intros a I. destruct (Y a I) as (_ & _ & B). lra.
    - rewrite (rsum_map_lin (fun _ : A => 0)). replace (2 ^ 520) with (2 ^ 20 * 2 ^ 500) by (rewrite <- pow_add; auto). fold N. pose proof (pow_lt 2 500 ltac:(lra)). nra. }
  assert (C1 : close e (N * n0) (rsum (map x l)) (rsum (map y l))) by (apply sum_close; intros a I; destruct (Y a I) as (_ & C & B); [lra|auto]).
  assert (N01 : N * n0 <= 1). { apply Rle_trans with (2 ^ 20 * / 2 ^ 200); [apply Rmult_le_compat; try lra; apply n0_tiny|]. simpl. lra. }
  assert (P520 : 2 ^ 520 * 4 <= 2 ^ 900) by (replace (2 ^ 520 * 4) with (2 ^ 522) by (replace 4 with (2 ^ 2) by (simpl; lra); rewrite <- pow_add; auto); apply Rle_pow; [lra|lia]).
  assert (one520 : 1 <= 2 ^ 520) by (apply pow_R1_Rle; lra).
  assert (YS : rsum (map y l) <= 2 ^ 900) by (destruct C1 as (_ & _ & U); assert (rsum (map x l) * (1 + e) <= 2 ^ 520 * 2) by (apply Rmult_le_compat; lra); lra).
  destruct (summed_close k (map f l) s (map y l) SM AN) as (S & IS & C2); auto.
  { intros v Hv. apply in_map_iff in Hv as (a & <- & I). destruct (Y a I) as (_ & (P & _) & _). auto. }
  { lra. }
  assert (KU : 0 <= 2 * INR k * u64 <= 2 * (N * u64)) by (split; [apply Rmult_le_pos; lra|]; assert (INR k * u64 <= N * u64) by (apply Rmult_le_compat_r; lra); lra).
  assert (KNN : 0 <= 2 * INR k * n0 <= 2 * (N * n0)) by (split; [apply Rmult_le_pos; lra|]; assert (INR k * n0 <= N * n0) by (apply Rmult_le_compat_r; lra); lra).
  assert (NN0 : 0 <= N * n0) by (apply Rmult_le_pos; lra).
  pose proof (closer_trans e (N * n0) (2 * INR k * u64) (2 * INR k * n0) _ _ _ (proj1 XS) ltac:(lra) ltac:(lra) NN0 ltac:(lra) C1 C2) as C3.
  assert (C3' : close (e + 2.1 * (N * u64)) (N * (4 * n0)) (rsum (map x l)) S). { revert C3. apply close_weaken; [lra| |lra]. nra. }
  pose proof (close_div _ _ _ _ N ltac:(lra) C3') as C4. replace (N * (4 * n0) / N) with (4 * n0) in C4 by (field; lra).
  assert (SB : 0 <= S / N <= 2 ^ 900).
  { destruct C4 as (S0 & _ & S1). split; [auto|]. assert (rsum (map x l) / N <= 2 ^ 520). { apply Rmult_le_reg_r with N; [lra|]. unfold Rdiv. rewrite Rmult_assoc, Rinv_l by lra. nra. }
    assert (0 <= rsum (map x l) / N) by (apply Rmult_le_pos; [lra|apply Rlt_le, Rinv_0_lt_compat; lra]). assert (n0 <= 1 / 4) by (apply Rle_trans with (1 := n0_tiny); simpl; lra). nra. }
  assert (IN : is_num (n_ofnat (O := F64) (length l)) N).
  { unfold n_ofnat, N. rewrite INR_IZR_INZ. apply num_ofZ. assert (Z.of_nat (length l) <= 2 ^ 20)%Z. { apply le_IZR. rewrite <- INR_IZR_INZ. apply Rle_trans with (1 := FW). simpl. lra. } lia. }
  exists (rnd64 (S / N)). split; [apply is_div; auto; [lra|]; rewrite Rabs_pos_eq by lra; apply Rle_trans with (2 ^ 900); [lra|apply pow_big; lia]|].
  pose proof (close_rnd _ (proj1 SB)) as C5.
  assert (M0 : 0 <= rsum (map x l) / N) by (apply Rmult_le_pos; [lra|apply Rlt_le, Rinv_0_lt_compat; lra]).
  assert (UN : u64 <= N * u64) by nra.
  pose proof (closer_trans (e + 2.1 * (N * u64)) (4 * n0) u64 n0 _ _ _ M0 ltac:(lra) ltac:(lra) ltac:(lra) ltac:(lra) C4 C5) as C6.
  unfold rmean. rewrite map_length. fold N. revert C6. apply close_weaken; [auto|nra|lra].
Qed.
Lemma mean_abs_close l r m : r <> [] -> INR (length r) <= 2 ^ 20 -> are_nums l r -> mean_of l m -> (forall v, In v r -> Rabs v <= 2 ^ 500) ->
  exists v, is_num m v /\ Rabs (v - rmean r) <= 4 * INR (length r) * u64 * rmean (map Rabs r) + 3 * n0.
Proof.
  intros NE FW AN (k & s & K & SM & ->) BD. assert (LL : length l = length r) by (clear -AN; unfold are_nums in AN; induction AN; [reflexivity|apply (f_equal Datatypes.S); assumption]). rewrite LL in *.
  set (N := INR (length r)) in *. pose proof (ge1 r NE) as N1. fold N in N1.
  pose proof u64_pos as UP. pose proof n0_pos as NP. assert (KN : INR k <= N) by (apply le_INR; auto). pose proof (pos_INR k) as K0.
  assert (NU : 0 <= N * u64 <= / 1000000). { split; [apply Rmult_le_pos; lra|]. apply Rle_trans with (2 ^ 20 * u64); [apply Rmult_le_compat_r; lra|]. rewrite u64_val. simpl. lra. }
  assert (N01 : 0 <= N * n0 <= 1). { split; [apply Rmult_le_pos; lra|]. apply Rle_trans with (2 ^ 20 * / 2 ^ 200); [apply Rmult_le_compat; try lra; apply n0_tiny|]. simpl. lra. }
  set (T := asum r). assert (T0 : 0 <= T) by apply asum_nonneg.
  assert (TB : T <= 2 ^ 520).
  { unfold T, asum. apply Rle_trans with (rsum (map (fun _ => 0 * 0 + 2 ^ 500) r)); [apply rsum_map_le; intros v I; specialize (BD v I); lra|].
    rewrite (rsum_map_lin (fun _ : R => 0)). replace (2 ^ 520) with (2 ^ 20 * 2 ^ 500) by (rewrite <- pow_add; auto). fold N. pose proof (pow_lt 2 500 ltac:(lra)). nra. }
  set (B := 2 * T + 2 * (N * n0)). assert (P520 : 2 ^ 520 * 4 <= big).
  { replace (2 ^ 520 * 4) with (2 ^ 522) by (replace 4 with (2 ^ 2) by (simpl; lra); rewrite <- pow_add; auto). apply pow_big. lia. }
  assert (one520 : 1 <= 2 ^ 520) by (apply pow_R1_Rle; lra). assert (BB : 0 <= B <= big) by (unfold B; lra).
  assert (EB : INR k * (u64 * B + n0) <= 2 * (N * u64) * T + 1.1 * (N * n0)).
  { apply Rle_trans with (N * (u64 * B + n0)); [apply Rmult_le_compat_r; [nra|auto]|]. replace (N * (u64 * B + n0)) with ((N * u64) * B + N * n0) by ring. unfold B. nra. }
  assert (TT : T + INR k * (u64 * B + n0) <= B) by (apply Rle_trans with (T + (2 * (N * u64) * T + 1.1 * (N * n0))); [lra|unfold B; nra]).
  destruct (summed_err T B k BB TT k l s SM r (le_n _) AN ltac:(unfold T; lra)) as (S & IS & ES & _).
  assert (RT : Rabs (rsum r) <= T) by apply rsum_asum.
  assert (ES' : Rabs (S - rsum r) <= 2 * (N * u64) * T + 1.1 * (N * n0)) by lra. clear ES EB TT.
  assert (SB : Rabs S <= 1.1 * T + 1.1 * (N * n0)). { replace S with ((S - rsum r) + rsum r) by ring. eapply Rle_trans; [apply Rabs_triang|]. nra. }
  assert (IP : 0 < / N) by (apply Rinv_0_lt_compat; lra). assert (IN1 : N * / N = 1) by (apply Rinv_r; lra). assert (IL : / N <= 1) by nra.
  assert (DN : forall z, Rabs (z / N) = Rabs z * / N) by (intros; unfold Rdiv; rewrite Rabs_mult, (Rabs_pos_eq (/ N)) by lra; auto).
  set (t := T * / N). assert (t0 : 0 <= t <= T) by (unfold t; nra).
  assert (SN : Rabs (S / N) <= 1.1 * t + 1.1 * n0). { rewrite DN. apply Rle_trans with ((1.1 * T + 1.1 * (N * n0)) * / N); [apply Rmult_le_compat_r; lra|]. unfold t. replace ((1.1 * T + 1.1 * (N * n0)) * / N) with (1.1 * (T * / N) + 1.1 * n0 * (N * / N)) by ring. rewrite IN1. lra. }
  assert (IN : is_num (n_ofnat (O := F64) (length r)) N).
  { unfold n_ofnat, N. rewrite INR_IZR_INZ. apply num_ofZ. assert (Z.of_nat (length r) <= 2 ^ 20)%Z. { apply le_IZR. rewrite <- INR_IZR_INZ. apply Rle_trans with (1 := FW). simpl. lra. } lia. }
  exists (rnd64 (S / N)). split; [apply is_div; auto; [lra|]; assert (n0 <= 1) by nra; lra|].
  replace (rmean (map Rabs r)) with t by (unfold t, rmean, T, asum, Rdiv; rewrite map_length; reflexivity).
  replace (rmean r) with (rsum r / N) by reflexivity.
  replace (rnd64 (S / N) - rsum r / N) with ((rnd64 (S / N) - S / N) + (S - rsum r) / N) by (field; lra). eapply Rle_trans; [apply Rabs_triang|].
  pose proof (rnd64_close (S / N)) as C. rewrite (DN (S - rsum r)).
  assert (E1 : Rabs (S - rsum r) * / N <= 2 * (N * u64) * t + 1.1 * n0).
  { apply Rle_trans with ((2 * (N * u64) * T + 1.1 * (N * n0)) * / N); [apply Rmult_le_compat_r; lra|]. unfold t. replace ((2 * (N * u64) * T + 1.1 * (N * n0)) * / N) with (2 * (N * u64) * (T * / N) + 1.1 * n0 * (N * / N)) by ring. rewrite IN1. lra. }
  assert (UN : u64 <= N * u64) by nra. assert (E2 : u64 * Rabs (S / N) <= (N * u64) * (1.1 * t) + 0.5 * n0).
  { apply Rle_trans with (u64 * (1.1 * t + 1.1 * n0)); [apply Rmult_le_compat_l; lra|]. nra. }
  replace (4 * N * u64 * t) with (4 * ((N * u64) * t)) by ring. assert (0 <= (N * u64) * t) by (apply Rmult_le_pos; lra). lra.
Qed.

Lemma n_mean_of (l : list F64) : mean_of l (n_mean l).
Proof. destruct (n_sum_sums l) as (k & K & S). exists k, (n_sum l). split; [auto|split; [auto|reflexivity]]. Qed.

Lemma num_sqrt_big (x : F64) v : is_num x v -> sqrt v <= big.
Proof.
  intros H. assert (L : v <= bpow radix2 1024). { rewrite <- (num_fr _ _ H). apply Rle_trans with (1 := Rle_abs _). apply Rlt_le, abs_B2R_lt_emax. }
  apply Rle_trans with (sqrt (bpow radix2 1024)); [apply sqrt_le_1_alt; auto|].
  replace (bpow radix2 1024) with (bpow radix2 512 * bpow radix2 512) by (rewrite <- bpow_plus; reflexivity). rewrite sqrt_square by apply bpow_ge_0. apply bpow_le. lia.
Qed.
Lemma combine_maps {A B} (P : A -> B -> Prop) l r : Forall2 P l r -> map fst (combine l r) = l /\ map snd (combine l r) = r.
Proof. induction 1 as [|a b l r _ _ (E1 & E2)]; [auto|]. cbn. rewrite E1, E2. auto. Qed.
Lemma combine_in {A B} (P : A -> B -> Prop) l r : Forall2 P l r -> forall z, In z (combine l r) -> P (fst z) (snd z) /\ In (snd z) r.
Proof.
  induction 1 as [|a b l r H _ IH]; intros z I; [destruct I|]. cbn [combine] in I. destruct I as [<-|I]; [cbn; auto|].
  destruct (IH z I). split; [auto|right; auto].
Qed.
Section Metrics.
Variables (es : list (F64 * F64)) (qs : list (R * R)).
Hypothesis (ne : qs <> []) (few : INR (length qs) <= 2 ^ 20).
Hypothesis nums : Forall2 (fun e q => is_num (fst e) (fst q) /\ is_num (snd e) (snd q)) es qs.
Hypothesis moderate : forall q, In q qs -> Rabs (fst q) <= 2 ^ 200 /\ Rabs (snd q) <= 2 ^ 200.
Let N := INR (length qs).

(** the list of pairs with their numbers *)
Let zs := combine es qs.
Lemma zs_in z : In z zs -> is_num (fst (fst z)) (fst (snd z)) /\ is_num (snd (fst z)) (snd (snd z)) /\ Rabs (fst (snd z)) <= 2 ^ 200 /\ Rabs (snd (snd z)) <= 2 ^ 200.
Proof using nums moderate.
  intros I. destruct (combine_in _ _ _ nums z I) as ((A & B) & Q). destruct (moderate _ Q). auto.
Qed.
Lemma zs_maps : map fst zs = es /\ map snd zs = qs.
Proof using nums. apply (combine_maps _ _ _ nums). Qed.
Lemma zs_len : length zs = length qs.
Proof using nums. destruct zs_maps as (_ & B). rewrite <- (map_length snd zs), B. auto. Qed.
Lemma zs_ne : zs <> [].
Proof using nums ne. intros E. apply ne. destruct zs_maps as (_ & B). rewrite <- B, E. reflexivity. Qed.
Lemma moderate_diff a b : Rabs a <= 2 ^ 200 -> Rabs b <= 2 ^ 200 -> Rabs (b - a) <= 2 ^ 201.
Proof using. intros A B. replace (2 ^ 201) with (2 ^ 200 + 2 ^ 200) by (simpl; lra). unfold Rminus. eapply Rle_trans; [apply Rabs_triang|]. rewrite Rabs_Ropp. lra. Qed.

Lemma mae_close m : mean_of (map n_abs (v_sub (map snd es) (map fst es))) m -> exists v, is_num m v /\ 0 <= v /\ Rabs (v - MAE qs) <= 5 * N * u64 * MAE qs + 9 * n0.
Proof using nums ne few moderate.
  intros H. pose proof u64_pos as UP. pose proof u64_small as US. destruct zs_maps as (E1 & E2). pose proof n0_pos as NP.
  assert (ML : map n_abs (v_sub (map snd es) (map fst es)) = map (fun z => n_abs (n_sub (snd (fst z)) (fst (fst z)))) zs).
  { unfold v_sub. rewrite map2_map, map_map. rewrite <- E1 at 1. rewrite map_map. reflexivity. }
  rewrite ML in H.
  destruct (mean_close (fun z => n_abs (n_sub (snd (fst z)) (fst (fst z)))) (fun z => Rabs (snd (snd z) - fst (snd z))) zs u64 m) as (v & V & C); auto.
  - apply zs_ne.
  - rewrite zs_len. auto.
  - rewrite u64_val. simpl. lra.
  - intros z I. destruct (zs_in z I) as (A & B & BA & BB). set (a := fst (snd z)) in *. set (b := snd (snd z)) in *. pose proof (moderate_diff a b BA BB) as D.
    pose proof (sub_rel _ _ _ _ B A) as SR. exists (Rabs (rnd64 (b - a))). split; [apply is_abs, is_sub; auto; apply Rle_trans with (1 := D), pow_big; lia|]. split.
    + rewrite <- rnd64_abs. pose proof (close_rnd (Rabs (b - a)) (Rabs_pos _)) as CR. exact CR.
    + split; [apply Rabs_pos|]. apply Rle_trans with (1 := D), Rle_pow; [lra|lia].
  - exists v. split; auto. pose proof C as (C0 & _). split; auto. apply close_abs in C. rewrite zs_len in C. fold N in C.
    assert (EM : rmean (map (fun z => Rabs (snd (snd z) - fst (snd z))) zs) = MAE qs). { unfold MAE, diffs. rewrite map_map, <- E2, map_map. reflexivity. }
    rewrite EM in C. assert (M0 : 0 <= MAE qs). { unfold MAE, rmean. apply Rmult_le_pos; [apply rsum_map_nonneg; intros; apply Rabs_pos|]. apply Rlt_le, Rinv_0_lt_compat. unfold diffs. rewrite !map_length. pose proof (ge1 qs ne). lra. }
    assert (UN : u64 <= N * u64) by (pose proof (ge1 qs ne); fold N in H0; nra). nra.
Qed.
Lemma sqrt_n0 : sqrt (9 * n0) = 3 * / 2 ^ 537.
Proof using.
  replace (9 * n0) with ((3 * / 2 ^ 537) * (3 * / 2 ^ 537)).
  - apply sqrt_square. apply Rmult_le_pos; [lra|apply Rlt_le, Rinv_0_lt_compat, pow_lt; lra].
  - rewrite n0_pow. replace (2 ^ 1074) with (2 ^ 537 * 2 ^ 537) by (rewrite <- pow_add; f_equal). rewrite Rinv_mult. ring.
Qed.
Lemma rmse_close m : mean_of (v_square (v_sub (map snd es) (map fst es))) m -> exists v, is_num (n_sqrt m) v /\ 0 <= v /\ Rabs (v - RMSE qs) <= 10 * N * u64 * RMSE qs + / 2 ^ 530.
Proof using nums ne few moderate.
  intros H. pose proof u64_pos as UP. pose proof u64_small as US. destruct zs_maps as (E1 & E2). pose proof n0_pos as NP.
  assert (U6 : u64 <= / 1000000) by (rewrite u64_val; simpl; lra).
  assert (ML : v_square (v_sub (map snd es) (map fst es)) = map (fun z => n_mul (n_sub (snd (fst z)) (fst (fst z))) (n_sub (snd (fst z)) (fst (fst z)))) zs).
  { unfold v_square, v_sub. rewrite map2_map, map_map. rewrite <- E1 at 1. rewrite map_map. reflexivity. }
  rewrite ML in H.
  destruct (mean_close (fun z => n_mul (n_sub (snd (fst z)) (fst (fst z))) (n_sub (snd (fst z)) (fst (fst z)))) (fun z => (snd (snd z) - fst (snd z)) * (snd (snd z) - fst (snd z))) zs (4 * u64) m) as (v & V & C); auto.
  - apply zs_ne.
  - rewrite zs_len. auto.
  - lra.
  - intros z I. destruct (zs_in z I) as (A & B & BA & BB). set (a := fst (snd z)) in *. set (b := snd (snd z)) in *. pose proof (moderate_diff a b BA BB) as D.
    pose proof (sub_rel _ _ _ _ B A) as SR. assert (ID : is_num (n_sub (snd (fst z)) (fst (fst z))) (rnd64 (b - a))) by (apply is_sub; auto; apply Rle_trans with (1 := D), pow_big; lia).
    set (d := b - a) in *. set (d' := rnd64 d) in *. clearbody d d'.
    assert (DD : Rabs (d' * d' - d * d) <= 2.1 * u64 * (d * d)).
    { replace (d' * d' - d * d) with ((d' - d) * (d' - d) + 2 * d * (d' - d)) by ring. eapply Rle_trans; [apply Rabs_triang|]. rewrite !Rabs_mult, (Rabs_pos_eq 2) by lra.
      replace (d * d) with (Rabs d * Rabs d) by (rewrite <- Rabs_mult; apply Rabs_pos_eq, Rle_0_sqr). pose proof (Rabs_pos d). pose proof (Rabs_pos (d' - d)).
      assert (Rabs (d' - d) * Rabs (d' - d) <= (u64 * Rabs d) * (u64 * Rabs d)) by (apply Rmult_le_compat; auto). assert (2 * Rabs d * Rabs (d' - d) <= 2 * Rabs d * (u64 * Rabs d)) by (apply Rmult_le_compat_l; lra).
      assert (0 <= Rabs d * Rabs d) by nra. assert ((u64 * Rabs d) * (u64 * Rabs d) <= 0.1 * u64 * (Rabs d * Rabs d)) by nra. nra. }
    assert (D2 : 0 <= d * d <= 2 ^ 402). { split; [apply Rle_0_sqr|]. replace (d * d) with (Rabs d * Rabs d) by (rewrite <- Rabs_mult; apply Rabs_pos_eq, Rle_0_sqr).
      replace (2 ^ 402) with (2 ^ 201 * 2 ^ 201) by (rewrite <- pow_add; f_equal). apply Rmult_le_compat; auto; apply Rabs_pos. }
    apply Rabs_le_inv in DD. assert (D2' : 0 <= d' * d' <= 2 * (d * d)) by (split; [apply Rle_0_sqr|nra]).
    exists (rnd64 (d' * d')). split; [|split].
    + apply is_mul; auto. rewrite Rabs_pos_eq by lra. apply Rle_trans with (2 ^ 403); [replace (2 ^ 403) with (2 * 2 ^ 402) by (change 403%nat with (Datatypes.S 402); reflexivity); lra|apply pow_big; lia].
    + assert (C1 : close (2.1 * u64) 0 (d * d) (d' * d')) by (split; [lra|split; nra]). pose proof (close_rnd (d' * d') (proj1 D2')) as C2.
      pose proof (closer_trans (2.1 * u64) 0 u64 n0 _ _ _ (proj1 D2) ltac:(lra) ltac:(lra) ltac:(lra) ltac:(lra) C1 C2) as C3. revert C3. apply close_weaken; [lra|nra|lra].
    + split; [lra|]. apply Rle_trans with (2 ^ 402); [lra|]. apply Rle_pow; [lra|lia].
  - rewrite zs_len in C. fold N in C.
    assert (EM : rmean (map (fun z => (snd (snd z) - fst (snd z)) * (snd (snd z) - fst (snd z))) zs) = rmean (map (fun d => d * d) (diffs qs))). { unfold diffs. rewrite !map_map, <- E2, map_map. reflexivity. }
    rewrite EM in C. set (ms := rmean (map (fun d => d * d) (diffs qs))) in *.
    assert (M0 : 0 <= ms). { unfold ms, rmean. apply Rmult_le_pos; [apply rsum_map_nonneg; intros; apply Rle_0_sqr|]. apply Rlt_le, Rinv_0_lt_compat. unfold diffs. rewrite !map_length. pose proof (ge1 qs ne). lra. }
    pose proof (ge1 qs ne) as N1. fold N in N1. assert (UN : u64 <= N * u64) by nra.
    assert (NU : N * u64 <= / 1000000). { apply Rle_trans with (2 ^ 20 * u64); [apply Rmult_le_compat_r; [lra|exact few]|]. rewrite u64_val. simpl. lra. }
    assert (C' : close (8 * (N * u64)) (9 * n0) ms v) by (revert C; apply close_weaken; lra).
    assert (NU1 : 0 <= 8 * (N * u64) <= 1) by lra. assert (N9 : 0 <= 9 * n0) by lra. pose proof (closer_sqrt _ _ _ _ M0 NU1 N9 C') as C1. rewrite sqrt_n0 in C1. change (sqrt ms) with (RMSE qs) in C1.
    assert (V0 : 0 <= v) by (destruct C; lra). pose proof (close_rnd (sqrt v) (sqrt_pos v)) as C2.
    assert (P : 0 < / 2 ^ 537) by (apply Rinv_0_lt_compat, pow_lt; lra).
    assert (R0 : 0 <= RMSE qs) by apply sqrt_pos.
    pose proof (closer_trans (8 * (N * u64)) (3 * / 2 ^ 537) u64 n0 _ _ _ R0 ltac:(lra) ltac:(lra) ltac:(lra) ltac:(lra) C1 C2) as C3.
    exists (rnd64 (sqrt v)). split; [|split; [apply rnd64_nonneg, sqrt_pos|]].
    + apply is_sqrt; auto. apply num_sqrt_big with (1 := V).
    + apply close_abs in C3. assert (n0 <= / 2 ^ 537) by (rewrite n0_pow; apply Rinv_le_contravar; [apply pow_lt; lra|apply Rle_pow; [lra|lia]]). assert (E530 : / 2 ^ 530 = 128 * / 2 ^ 537). { replace (2 ^ 537) with (2 ^ 530 * 2 ^ 7) by (rewrite <- pow_add; f_equal). rewrite Rinv_mult. replace (2 ^ 7) with 128 by (simpl; lra). field; auto. }
      rewrite E530. set (nu := N * u64) in *. assert (ER : 8 * nu + u64 + 8 * nu * u64 <= 10 * nu) by nra.
      apply Rmult_le_compat_l with (1 := R0) in ER. replace (10 * N * u64 * RMSE qs) with (RMSE qs * (10 * nu)) by (unfold nu; ring). lra.
Qed.
End Metrics.

(** ** sums of zeros *)
Lemma summed_zeros k l x : summed k l x -> (forall y, In y l -> is_num y 0) -> is_num x 0.
Proof.
  induction 1 as [|x|j k l l' x y _ IH1 _ IH2|k l l' x P _ IH]; intros H.
  - apply is_zero.
  - apply H. left. auto.
  - assert (X : is_num x 0) by (apply IH1; intros; apply H, in_or_app; auto). assert (Y : is_num y 0) by (apply IH2; intros; apply H, in_or_app; auto).
    pose proof (is_add x y 0 0 X Y) as E. rewrite Rplus_0_r, rnd64_0 in E. apply E. rewrite Rabs_R0. apply Rlt_le, bpow_gt_0.
  - apply IH. intros y I. apply H. apply (Permutation_in _ P). auto.
Qed.
Lemma mean_zeros l m : l <> [] -> INR (length l) <= 2 ^ 20 -> mean_of l m -> (forall y, In y l -> is_num y 0) -> is_num m 0.
Proof.
  intros NE FW (k & s & _ & S & ->) H. pose proof (summed_zeros k l s S H) as IS. pose proof (ge1 l NE) as N1.
  assert (IN : is_num (n_ofnat (O := F64) (length l)) (INR (length l))).
  { unfold n_ofnat. rewrite INR_IZR_INZ. apply num_ofZ. assert (Z.of_nat (length l) <= 2 ^ 20)%Z. { apply le_IZR. rewrite <- INR_IZR_INZ. apply Rle_trans with (1 := FW). simpl. lra. } lia. }
  assert (D0 : 0 / INR (length l) = 0) by (unfold Rdiv; ring).
  pose proof (is_div s _ 0 _ IS IN) as E. rewrite D0, rnd64_0 in E. apply E; [lra|]. rewrite Rabs_R0. apply Rlt_le, bpow_gt_0.
Qed.
Lemma perfect_metrics (es : list (F64 * F64)) qs ma ms : qs <> [] -> INR (length qs) <= 2 ^ 20 ->
  Forall2 (fun e q => is_num (fst e) (fst q) /\ is_num (snd e) (snd q)) es qs -> (forall q, In q qs -> fst q = snd q) ->
  mean_of (map n_abs (v_sub (map snd es) (map fst es))) ma -> mean_of (v_square (v_sub (map snd es) (map fst es))) ms -> is_num ma 0 /\ is_num (n_sqrt ms) 0.
Proof.
  intros NE FW F EQ HA HS. destruct (combine_maps _ _ _ F) as (E1 & E2).
  assert (LE : length es = length qs) by (clear -F; induction F; [reflexivity|apply (f_equal Datatypes.S); assumption]).
  assert (NE' : es <> []) by (intros ->; destruct qs; [congruence|discriminate]).
  assert (D : forall e, In e es -> is_num (n_sub (snd e) (fst e)) 0).
  { intros e I. rewrite <- E1 in I. apply in_map_iff in I as (z & <- & I). destruct (combine_in _ _ _ F z I) as ((A & B) & Q). rewrite <- (EQ _ Q) in B.
    pose proof (is_sub _ _ _ _ B A) as E. rewrite Rminus_diag_eq, rnd64_0 in E by auto. apply E. rewrite Rabs_R0. apply Rlt_le, bpow_gt_0. }
  unfold v_square, v_sub in *. rewrite map2_map, map_map in *. split.
  - apply (mean_zeros _ _) in HA; auto; [destruct es; [congruence|discriminate]|rewrite map_length, LE; auto|].
    intros y I. apply in_map_iff in I as (e & <- & I). pose proof (is_abs _ _ (D e I)) as E. rewrite Rabs_R0 in E. exact E.
  - apply (mean_zeros _ _) in HS; auto; [|destruct es; [congruence|discriminate]|rewrite map_length, LE; auto|].
    + pose proof (is_sqrt _ _ HS (Rle_refl _)) as E. rewrite sqrt_0, rnd64_0 in E. apply E. apply Rlt_le, bpow_gt_0.
    + intros y I. apply in_map_iff in I as (e & <- & I). pose proof (is_mul _ _ _ _ (D e I) (D e I)) as E. rewrite Rmult_0_l, rnd64_0 in E. apply E. rewrite Rabs_R0. apply Rlt_le, bpow_gt_0.
Qed.

(** ** the four metrics *)
Lemma metrics_close r p qs ma ms mr mp : float_pairs r p qs -> qs <> [] -> INR (length qs) <= 2 ^ 20 -> (forall q, In q qs -> Rabs (fst q) <= 2 ^ 200 /\ Rabs (snd q) <= 2 ^ 200) ->
  let es := valid_pairs r p in
  mean_of (map (fun e => n_abs (n_sub (snd e) (fst e))) es) ma -> mean_of (map (fun e => n_mul (n_sub (snd e) (fst e)) (n_sub (snd e) (fst e))) es) ms ->
  mean_of (map fst es) mr -> mean_of (map snd es) mp ->
  exists a s x y, is_num ma a /\ is_num (n_sqrt ms) s /\ is_num mr x /\ is_num mp y /\ 0 <= a /\ 0 <= s /\
  within 5 (/ 2 ^ 1070) (length qs) (MAE qs) (MAE qs) a /\ within 10 (/ 2 ^ 530) (length qs) (RMSE qs) (RMSE qs) s /\
  within 4 (/ 2 ^ 1072) (length qs) (rmean (map fst qs)) (rmean (map Rabs (map fst qs))) x /\
  within 4 (/ 2 ^ 1072) (length qs) (rmean (map snd qs)) (rmean (map Rabs (map snd qs))) y /\
  ((forall q, In q qs -> fst q = snd q) -> a = 0 /\ s = 0) /\
  a <= s * (1 + 20 * INR (length qs) / 2 ^ 53) + / 2 ^ 528.
Proof.
  intros F NE FW MD es HA HS HR HP. unfold float_pairs in F. fold es in F.
  assert (EA : map (fun e => n_abs (n_sub (snd e) (fst e))) es = map n_abs (v_sub (map snd es) (map fst es))) by (unfold v_sub; rewrite map2_map, map_map; reflexivity).
  assert (ES : map (fun e => n_mul (n_sub (snd e) (fst e)) (n_sub (snd e) (fst e))) es = v_square (v_sub (map snd es) (map fst es))) by (unfold v_square, v_sub; rewrite map2_map, map_map; reflexivity).
  rewrite EA in HA. rewrite ES in HS.
  destruct (mae_close es qs NE FW F MD ma HA) as (a & IA & A0 & CA). destruct (rmse_close es qs NE FW F MD ms HS) as (s & IS & S0 & CS).
  assert (AR : are_nums (map fst es) (map fst qs)) by (clear -F; induction F as [|e q l l' (H & _) _ IH]; cbn; constructor; auto).
  assert (AP : are_nums (map snd es) (map snd qs)) by (clear -F; induction F as [|e q l l' (_ & H) _ IH]; cbn; constructor; auto).
  assert (P500 : 2 ^ 200 <= 2 ^ 500) by (apply Rle_pow; [lra|lia]).
  destruct (mean_abs_close (map fst es) (map fst qs) mr) as (x & IX & CX); auto.
  { destruct qs; [congruence|discriminate]. } { rewrite map_length. auto. } { intros v I. apply in_map_iff in I as (q & <- & I). destruct (MD q I). lra. }
  destruct (mean_abs_close (map snd es) (map snd qs) mp) as (y & IY & CY); auto.
  { destruct qs; [congruence|discriminate]. } { rewrite map_length. auto. } { intros v I. apply in_map_iff in I as (q & <- & I). destruct (MD q I). lra. }
  rewrite !map_length in CX, CY.
  assert (P72 : n0 * 4 = / 2 ^ 1072). { rewrite n0_pow. replace (2 ^ 1074) with (2 ^ 1072 * 2 ^ 2) by (rewrite <- pow_add; f_equal). rewrite Rinv_mult. replace (2 ^ 2) with 4 by (simpl; lra). rewrite Rmult_assoc, Rinv_l by lra. ring. }
  assert (P70 : / 2 ^ 1070 = 4 * / 2 ^ 1072). { replace (2 ^ 1072) with (2 ^ 1070 * 2 ^ 2) by (rewrite <- pow_add; f_equal). rewrite Rinv_mult. replace (2 ^ 2) with 4 by (simpl; lra). field; auto. }
  pose proof n0_pos as NP. pose proof u64_val as UV. set (N := INR (length qs)) in *.
  assert (W : forall c, c * N / 2 ^ 53 = c * N * u64) by (intros; rewrite UV; change (2 ^ 53)%Z with (2 ^ Z.of_nat 53)%Z; rewrite <- pow_IZR; reflexivity).
  exists a, s, x, y. split; [exact IA|]. split; [exact IS|]. split; [exact IX|]. split; [exact IY|]. split; [exact A0|]. split; [exact S0|]. unfold within. rewrite !W.
  split; [lra|]. split; [lra|]. split; [lra|]. split; [lra|]. split.
  - intros EQ. destruct (perfect_metrics es qs ma ms NE FW F EQ HA HS) as (Z1 & Z2). split; [exact (is_num_fun _ _ _ IA Z1)|exact (is_num_fun _ _ _ IS Z2)].
  - destruct (MAE_RMSE qs NE) as ((M0 & M1) & _). pose proof u64_pos as UP. pose proof (ge1 qs NE) as N1. fold N in N1.
    assert (NU : 0 < N * u64 <= / 1000000). { split; [apply Rmult_lt_0_compat; lra|]. apply Rle_trans with (2 ^ 20 * u64); [apply Rmult_le_compat_r; [lra|exact FW]|]. rewrite u64_val. simpl. lra. }
    apply Rabs_le_inv in CA, CS. set (nu := N * u64) in *. replace (20 * N * u64) with (20 * nu) by (unfold nu; ring).
    replace (5 * N * u64 * MAE qs) with (5 * nu * MAE qs) in CA by (unfold nu; ring). replace (10 * N * u64 * RMSE qs) with (10 * nu * RMSE qs) in CS by (unfold nu; ring).
    assert (Q : 0 < / 2 ^ 530) by (apply Rinv_0_lt_compat, pow_lt; lra). assert (Q28 : / 2 ^ 528 = 4 * / 2 ^ 530). { replace (2 ^ 530) with (2 ^ 528 * 2 ^ 2) by (rewrite <- pow_add; f_equal). rewrite Rinv_mult. replace (2 ^ 2) with 4 by (simpl; lra). field; auto. }
    assert (N30 : 9 * n0 <= / 2 ^ 530). { rewrite n0_pow. replace (2 ^ 1074) with (2 ^ 530 * 2 ^ 544) by (rewrite <- pow_add; f_equal). rewrite Rinv_mult. assert (/ 2 ^ 544 <= / 2 ^ 4) by (apply Rinv_le_contravar; [apply pow_lt; lra|apply Rle_pow; [lra|lia]]).
      replace (/ 2 ^ 4) with (/ 16) in H by (simpl; lra). nra. }
    rewrite Q28. assert (A1 : a <= RMSE qs * (1 + 5 * nu) + / 2 ^ 530) by nra. assert (S1 : RMSE qs * (1 - 10 * nu) <= s + / 2 ^ 530) by lra.
    assert (B1 : RMSE qs * (1 - 10 * nu) * (1 + 20 * nu) <= (s + / 2 ^ 530) * (1 + 20 * nu)) by (apply Rmult_le_compat_r; lra).
    assert (B2 : RMSE qs * (1 + 5 * nu) <= RMSE qs * (1 - 10 * nu) * (1 + 20 * nu)). { rewrite Rmult_assoc. apply Rmult_le_compat_l; [lra|]. nra. }
    assert (B3 : / 2 ^ 530 * (1 + 20 * nu) <= / 2 ^ 530 * 2) by (apply Rmult_le_compat_l; lra). lra.
Qed.

(** ** rain of falsely and missed wet pairs *)
Lemma num_ltb (x y : F64) a b : is_num x a -> is_num y b -> n_ltb x y = Rlt_bool a b.
Proof. intros X Y. pose proof (val_ltb _ F64sem x y) as V. change (n_ltb x y = xltb (f_val x) (f_val y)) in V. rewrite V, X, Y. reflexivity. Qed.
Lemma filter_pairs (f : F64 * F64 -> bool) (g : R * R -> bool) es qs : Forall2 (fun e q => is_num (fst e) (fst q) /\ is_num (snd e) (snd q)) es qs ->
  (forall e q, is_num (fst e) (fst q) -> is_num (snd e) (snd q) -> f e = g q) -> Forall2 (fun e q => is_num (fst e) (fst q) /\ is_num (snd e) (snd q)) (filter f es) (filter g qs).
Proof.
  intros F H. induction F as [|e q es qs (A & B) _ IH]; cbn [filter]; [constructor|]. rewrite (H e q A B). destruct (g q); [constructor|]; auto.
Qed.
Lemma rmean_gt t l : l <> [] -> (forall v, In v l -> t < v) -> t < rmean l.
Proof.
  intros NE H. pose proof (ge1 l NE) as N1. unfold rmean, Rdiv. apply Rmult_lt_reg_r with (INR (length l)); [lra|]. rewrite Rmult_assoc, Rinv_l, Rmult_1_r by lra.
  clear N1. revert NE. induction l as [|v l IH]; intros NE; [congruence|]. cbn [length rsum fold_right]. rewrite S_INR. fold (rsum l). pose proof (H v (or_introl eq_refl)).
  destruct l as [|w l]; [cbn; lra|]. assert (t * INR (length (w :: l)) < rsum (w :: l)) by (apply IH; [intros; apply H; right; auto|discriminate]). lra.
Qed.
Lemma class_close (f : F64 * F64 -> bool) (g : R * R -> bool) (pe : F64 * F64 -> F64) (pq : R * R -> R) tr es qs m :
  Forall2 (fun e q => is_num (fst e) (fst q) /\ is_num (snd e) (snd q)) es qs -> INR (length qs) <= 2 ^ 20 -> (forall q, In q qs -> Rabs (pq q) <= 2 ^ 200) ->
  (forall e q, is_num (fst e) (fst q) -> is_num (snd e) (snd q) -> f e = g q /\ is_num (pe e) (pq q)) -> (forall q, g q = true -> tr < pq q) ->
  filter g qs <> [] -> mean_of (map pe (filter f es)) m ->
  exists v, is_num m v /\ within 4 (/ 2 ^ 1072) (length (filter g qs)) (rmean (map pq (filter g qs))) (rmean (map Rabs (map pq (filter g qs)))) v /\ tr < rmean (map pq (filter g qs)).
Proof.
  intros F FW MD H GT NE HM. assert (F' := filter_pairs f g es qs F (fun e q A B => proj1 (H e q A B))).
  assert (AN : are_nums (map pe (filter f es)) (map pq (filter g qs))).
  { clear -F' H. induction F' as [|e q l l' (A & B) _ IH]; cbn; constructor; auto. apply H; auto. }
  assert (FL : (length (filter g qs) <= length qs)%nat) by (clear; induction qs as [|q qs IH]; cbn; [lia|]; destruct (g q); cbn; lia).
  assert (P500 : 2 ^ 200 <= 2 ^ 500) by (apply Rle_pow; [lra|lia]).
  assert (NE' : map pq (filter g qs) <> []) by (destruct (filter g qs); [congruence|discriminate]).
  destruct (mean_abs_close (map pe (filter f es)) (map pq (filter g qs)) m NE') as (v & V & C); auto.
  { rewrite map_length. apply Rle_trans with (2 := FW), le_INR, FL. }
  { intros w I. apply in_map_iff in I as (q & <- & I). apply filter_In in I as (I & _). specialize (MD q I). lra. }
  rewrite map_length in C. exists v. split; auto. split.
  - unfold within. replace (4 * INR (length (filter g qs)) / 2 ^ 53) with (4 * INR (length (filter g qs)) * u64) by (rewrite u64_val; change (2 ^ 53)%Z with (2 ^ Z.of_nat 53)%Z; rewrite <- pow_IZR; reflexivity).
    assert (P72 : n0 * 4 = / 2 ^ 1072). { rewrite n0_pow. replace (2 ^ 1074) with (2 ^ 1072 * 2 ^ 2) by (rewrite <- pow_add; f_equal). rewrite Rinv_mult. replace (2 ^ 2) with 4 by (simpl; lra). rewrite Rmult_assoc, Rinv_l by lra. ring. }
    pose proof n0_pos. lra.
  - apply rmean_gt; auto. intros w I. apply in_map_iff in I as (q & <- & I). apply filter_In in I as (_ & I). auto.
Qed.
Lemma fw_num t tr e q : is_num t tr -> is_num (fst e) (fst q) -> is_num (snd e) (snd q) -> false_wet t e = fw tr q.
Proof. intros T A B. unfold false_wet, fw, dry, wet. rewrite (num_ltb _ _ _ _ T A), (num_ltb _ _ _ _ T B). reflexivity. Qed.
Lemma mw_num t tr e q : is_num t tr -> is_num (fst e) (fst q) -> is_num (snd e) (snd q) -> missed_wet t e = mw tr q.
Proof. intros T A B. unfold missed_wet, mw, dry, wet. rewrite (num_ltb _ _ _ _ T A), (num_ltb _ _ _ _ T B). reflexivity. Qed.
