(** * Proofs for MetricPoolFloat_props.v *)
From Coq Require Import Reals Lra Lia ZArith Bool List.
From Flocq Require Import Core.
From Verif Require Import Base Num NumF64 NumList NpOps RealStat Libm Ulp64 Stats_model Stats_spec Stats_proofs Stats_proofs3 MetricPool_proofs HaversineFloat_spec HaversineFloat_proofs FloatErr_spec FloatErr_proofs StatsErr_spec StatsErr_proofs StatsErr_props.
Import ListNotations.
Local Open Scope R_scope.

(** weighted means of numbers that are exact up to [d] (relative) and [t] (absolute) *)
Lemma weighted_close N1 N2 A1 A2 A a1 a2 a d t : 0 < N1 -> 0 < N2 -> 0 <= A1 -> 0 <= A2 -> 0 <= A -> 0 <= t -> 0 <= d <= / 100 ->
  (N1 + N2) * A = N1 * A1 + N2 * A2 -> Rabs (a1 - A1) <= d * A1 + t -> Rabs (a2 - A2) <= d * A2 + t -> Rabs (a - A) <= d * A + t ->
  Rabs ((N1 + N2) * a - (N1 * a1 + N2 * a2)) <= 11 / 5 * d * ((N1 + N2) * a) + 3 * (N1 + N2) * t.
Proof.
  intros P1 P2 Z1 Z2 Z Zt Hd E H1 H2 H.
  assert (K1 : Rabs (N1 * (a1 - A1)) <= N1 * (d * A1 + t)) by (rewrite Rabs_mult, (Rabs_pos_eq N1) by lra; apply Rmult_le_compat_l; lra).
  assert (K2 : Rabs (N2 * (a2 - A2)) <= N2 * (d * A2 + t)) by (rewrite Rabs_mult, (Rabs_pos_eq N2) by lra; apply Rmult_le_compat_l; lra).
  assert (K : Rabs ((N1 + N2) * (a - A)) <= (N1 + N2) * (d * A + t)) by (rewrite Rabs_mult, (Rabs_pos_eq (N1 + N2)) by lra; apply Rmult_le_compat_l; lra).
  assert (L : Rabs ((N1 + N2) * a - (N1 * a1 + N2 * a2)) <= 2 * d * ((N1 + N2) * A) + 2 * (N1 + N2) * t).
  { replace ((N1 + N2) * a - (N1 * a1 + N2 * a2)) with ((N1 + N2) * (a - A) - N1 * (a1 - A1) - N2 * (a2 - A2)) by lra.
    replace (2 * d * ((N1 + N2) * A) + 2 * (N1 + N2) * t) with ((N1 + N2) * (d * A + t) + N1 * (d * A1 + t) + N2 * (d * A2 + t))
      by (pose proof (f_equal (Rmult d) E); lra).
    eapply Rle_trans; [apply Rabs_triang|]. rewrite Rabs_Ropp. eapply Rle_trans; [apply Rplus_le_compat_r; eapply Rle_trans; [apply Rabs_triang|rewrite Rabs_Ropp; apply Rplus_le_compat; eassumption]|]. lra. }
  assert (B : A * (1 - d) <= a + t) by (apply Rabs_le_inv in H; lra).
  assert (B' : A <= (a + t) * (11 / 10)).
  { apply Rle_trans with ((a + t) / (1 - d)).
    - apply Rmult_le_reg_r with (1 - d); [lra|]. unfold Rdiv. rewrite Rmult_assoc, Rinv_l by lra. lra.
    - apply Rmult_le_compat_l; [apply Rabs_le_inv in H; nra|]. apply Rmult_le_reg_r with (1 - d); [lra|]. rewrite Rinv_l by lra. lra. }
  eapply Rle_trans; [exact L|]. assert (D : d * ((N1 + N2) * A) <= d * ((N1 + N2) * ((a + t) * (11 / 10)))) by (apply Rmult_le_compat_l; [lra|]; apply Rmult_le_compat_l; lra).
  assert (D' : d * ((N1 + N2) * t) <= / 100 * ((N1 + N2) * t)) by (apply Rmult_le_compat_r; [|lra]; apply Rmult_le_pos; lra).
  assert (0 <= (N1 + N2) * t) by (apply Rmult_le_pos; lra). lra.
Qed.
Lemma between_close A1 A2 A a1 a2 a d t : 0 <= A1 -> 0 <= A2 -> 0 <= A -> 0 <= t -> 0 <= d <= / 100 -> 0 <= a1 -> 0 <= a2 ->
  Rmin A1 A2 <= A <= Rmax A1 A2 -> Rabs (a1 - A1) <= d * A1 + t -> Rabs (a2 - A2) <= d * A2 + t -> Rabs (a - A) <= d * A + t ->
  Rmin a1 a2 * (1 - 3 * d) - 4 * t <= a <= Rmax a1 a2 * (1 + 3 * d) + 4 * t.
Proof.
  intros Z1 Z2 Z Zt Hd p1 p2 HB H1 H2 H. apply Rabs_le_inv in H1. apply Rabs_le_inv in H2. apply Rabs_le_inv in H.
  assert (UP : forall X x, 0 <= X -> 0 <= x -> - (d * X + t) <= x - X -> X * (1 + d) <= x * (1 + 3 * d) + 3 * t).
  { intros X x PX Px K. apply Rmult_le_reg_r with (1 - d); [lra|].
    replace (X * (1 + d) * (1 - d)) with ((X - d * X) * (1 + d)) by ring.
    apply Rle_trans with ((x + t) * (1 + d)); [apply Rmult_le_compat_r; lra|].
    replace ((x * (1 + 3 * d) + 3 * t) * (1 - d)) with (x * (1 + 2 * d - 3 * (d * d)) + 3 * t * (1 - d)) by ring.
    replace ((x + t) * (1 + d)) with (x * (1 + d) + t * (1 + d)) by ring.
    assert (0 <= d * (1 - 3 * d)) by (apply Rmult_le_pos; lra).
    apply Rplus_le_compat; [apply Rmult_le_compat_l; lra|]. rewrite (Rmult_comm 3), Rmult_assoc. apply Rmult_le_compat_l; lra. }
  assert (LO : forall X x, 0 <= X -> 0 <= x -> x - X <= d * X + t -> x * (1 - 3 * d) - 3 * t <= X * (1 - d)).
  { intros X x PX Px K. apply Rmult_le_reg_r with (1 + d); [lra|].
    apply Rle_trans with ((x - t) * (1 - d)).
    - replace ((x * (1 - 3 * d) - 3 * t) * (1 + d)) with (x * (1 - 2 * d - 3 * (d * d)) - t * (3 * (1 + d))) by ring.
      replace ((x - t) * (1 - d)) with (x * (1 - d) - t * (1 - d)) by ring.
      assert (0 <= d * (1 + 3 * d)) by (apply Rmult_le_pos; lra).
      assert (x * (1 - 2 * d - 3 * (d * d)) <= x * (1 - d)) by (apply Rmult_le_compat_l; lra).
      assert (t * (1 - d) <= t * (3 * (1 + d))) by (apply Rmult_le_compat_l; lra). lra.
    - replace (X * (1 - d) * (1 + d)) with ((X + d * X) * (1 - d)) by ring. apply Rmult_le_compat_r; lra. }
  pose proof (UP A1 a1 Z1 p1 ltac:(lra)) as U1. pose proof (UP A2 a2 Z2 p2 ltac:(lra)) as U2.
  pose proof (LO A1 a1 Z1 p1 ltac:(lra)) as L1. pose proof (LO A2 a2 Z2 p2 ltac:(lra)) as L2. destruct HB as [B1 B2]. split.
  - assert (G : Rmin a1 a2 * (1 - 3 * d) - 3 * t <= Rmin A1 A2 * (1 - d)).
    { unfold Rmin at 2. destruct (Rle_dec A1 A2); [eapply Rle_trans; [|exact L1]|eapply Rle_trans; [|exact L2]]; apply Rplus_le_compat_r; apply Rmult_le_compat_r; try lra; [apply Rmin_l|apply Rmin_r]. }
    assert (Rmin A1 A2 * (1 - d) <= A * (1 - d)) by (apply Rmult_le_compat_r; lra). lra.
  - assert (G : Rmax A1 A2 * (1 + d) <= Rmax a1 a2 * (1 + 3 * d) + 3 * t).
    { unfold Rmax at 1. destruct (Rle_dec A1 A2); [eapply Rle_trans; [exact U2|]|eapply Rle_trans; [exact U1|]]; apply Rplus_le_compat_r; apply Rmult_le_compat_r; try lra; [apply Rmax_r|apply Rmax_l]. }
    assert (A * (1 + d) <= Rmax A1 A2 * (1 + d)) by (apply Rmult_le_compat_r; lra). lra.
Qed.
Lemma weighted_between N1 N2 A1 A2 A : 0 < N1 -> 0 < N2 -> (N1 + N2) * A = N1 * A1 + N2 * A2 -> Rmin A1 A2 <= A <= Rmax A1 A2.
Proof.
  intros P1 P2 E. pose proof (Rmin_l A1 A2). pose proof (Rmin_r A1 A2). pose proof (Rmax_l A1 A2). pose proof (Rmax_r A1 A2).
  assert (N1 * Rmin A1 A2 <= N1 * A1) by (apply Rmult_le_compat_l; lra). assert (N2 * Rmin A1 A2 <= N2 * A2) by (apply Rmult_le_compat_l; lra).
  assert (N1 * A1 <= N1 * Rmax A1 A2) by (apply Rmult_le_compat_l; lra). assert (N2 * A2 <= N2 * Rmax A1 A2) by (apply Rmult_le_compat_l; lra).
  split; apply Rmult_le_reg_l with (N1 + N2); lra.
Qed.
Lemma square_between N1 N2 A1 A2 A : 0 < N1 -> 0 < N2 -> 0 <= A1 -> 0 <= A2 -> 0 <= A -> (N1 + N2) * (A * A) = N1 * (A1 * A1) + N2 * (A2 * A2) -> Rmin A1 A2 <= A <= Rmax A1 A2.
Proof.
  intros P1 P2 Z1 Z2 Z E. pose proof (weighted_between _ _ _ _ _ P1 P2 E) as [L U].
  assert (SQ : forall x y, 0 <= x -> 0 <= y -> x * x <= y * y -> x <= y) by (intros x y Px Py K; apply Rsqr_incr_0; assumption).
  split.
  - unfold Rmin. destruct (Rle_dec A1 A2) as [G|G].
    + apply SQ; auto. eapply Rle_trans; [|exact L]. unfold Rmin. destruct (Rle_dec (A1 * A1) (A2 * A2)) as [G'|G']; [lra|]. exfalso. apply G'. apply Rmult_le_compat; assumption.
    + apply SQ; auto. eapply Rle_trans; [|exact L]. unfold Rmin. assert (A2 * A2 <= A1 * A1) by (apply Rmult_le_compat; lra). destruct (Rle_dec (A1 * A1) (A2 * A2)) as [G'|G']; lra.
  - unfold Rmax. destruct (Rle_dec A1 A2) as [G|G].
    + apply SQ; auto. eapply Rle_trans; [exact U|]. unfold Rmax. assert (A1 * A1 <= A2 * A2) by (apply Rmult_le_compat; lra). destruct (Rle_dec (A1 * A1) (A2 * A2)) as [G'|G']; lra.
    + apply SQ; auto. eapply Rle_trans; [exact U|]. unfold Rmax. assert (A2 * A2 <= A1 * A1) by (apply Rmult_le_compat; lra). destruct (Rle_dec (A1 * A1) (A2 * A2)) as [G'|G']; lra.
Qed.
(** signed means: the error is relative to the mean magnitude *)
Lemma weighted_close_abs N1 N2 A1 A2 A B1 B2 B a1 a2 a d t : 0 < N1 -> 0 < N2 -> 
  (N1 + N2) * A = N1 * A1 + N2 * A2 -> (N1 + N2) * B = N1 * B1 + N2 * B2 -> Rabs (a1 - A1) <= d * B1 + t -> Rabs (a2 - A2) <= d * B2 + t -> Rabs (a - A) <= d * B + t ->
  Rabs ((N1 + N2) * a - (N1 * a1 + N2 * a2)) <= 2 * d * ((N1 + N2) * B) + 2 * (N1 + N2) * t.
Proof.
  intros P1 P2 E EB H1 H2 H.
  assert (K1 : Rabs (N1 * (a1 - A1)) <= N1 * (d * B1 + t)) by (rewrite Rabs_mult, (Rabs_pos_eq N1) by lra; apply Rmult_le_compat_l; lra).
  assert (K2 : Rabs (N2 * (a2 - A2)) <= N2 * (d * B2 + t)) by (rewrite Rabs_mult, (Rabs_pos_eq N2) by lra; apply Rmult_le_compat_l; lra).
  assert (K : Rabs ((N1 + N2) * (a - A)) <= (N1 + N2) * (d * B + t)) by (rewrite Rabs_mult, (Rabs_pos_eq (N1 + N2)) by lra; apply Rmult_le_compat_l; lra).
  replace ((N1 + N2) * a - (N1 * a1 + N2 * a2)) with ((N1 + N2) * (a - A) - N1 * (a1 - A1) - N2 * (a2 - A2)) by lra.
  replace (2 * d * ((N1 + N2) * B) + 2 * (N1 + N2) * t) with ((N1 + N2) * (d * B + t) + N1 * (d * B1 + t) + N2 * (d * B2 + t))
    by (pose proof (f_equal (Rmult d) EB); lra).
  eapply Rle_trans; [apply Rabs_triang|]. rewrite Rabs_Ropp. eapply Rle_trans; [apply Rplus_le_compat_r; eapply Rle_trans; [apply Rabs_triang|rewrite Rabs_Ropp; apply Rplus_le_compat; eassumption]|]. lra.
Qed.

(** the error of a shorter record is within the bound of the joined one *)
Lemma within_more c a n m A v B : 0 <= c -> 0 <= B -> (n <= m)%nat -> within c a n A B v -> Rabs (v - A) <= c * INR m / 2 ^ 53 * B + a.
Proof.
  intros Hc HB L H. unfold within in H. eapply Rle_trans; [exact H|]. apply Rplus_le_compat_r. apply Rmult_le_compat_r; [assumption|].
  unfold Rdiv. apply Rmult_le_compat_r; [lra|]. apply Rmult_le_compat_l; [assumption|]. apply le_INR; assumption.
Qed.
Lemma float_pairs_app r1 p1 r2 p2 ps qs : length r1 = length p1 -> float_pairs r1 p1 ps -> float_pairs r2 p2 qs -> float_pairs (r1 ++ r2) (p1 ++ p2) (ps ++ qs).
Proof. intros L H1 H2. unfold float_pairs in *. rewrite valid_app by assumption. apply Forall2_app; assumption. Qed.
Lemma pairs_length {A B} (P : A -> B -> Prop) l r : Forall2 P l r -> length l = length r.
Proof. induction 1; cbn; congruence. Qed.
Lemma float_pairs_length r p qs n t e : length r = n -> length p = n -> float_pairs r p qs -> calc_rain_error_performance_metrics (mk_arr [n] r) (mk_arr [n] p) t = Ok e ->
  INR (n - re_N_nan_pairs e) = INR (length qs).
Proof.
  intros L1 L2 F C. assert (E : length r = length p) by congruence. rewrite (rain_eval r p n [] t E) in C. injection C as C. rewrite <- C. cbn [re_N_nan_pairs].
  pose proof (nan_count r p E) as L. pose proof (pairs_length _ _ _ F) as L'. f_equal. lia.
Qed.
Lemma rmean_map_nonneg {A} (f : A -> R) l : (forall e, 0 <= f e) -> 0 <= rmean (map f l).
Proof.
  intros H. unfold rmean. destruct (Req_dec (INR (length (map f l))) 0) as [E|E]; [rewrite E; unfold Rdiv; rewrite Rinv_0; lra|].
  apply Rmult_le_pos; [apply rsum_map_nonneg; auto|]. apply Rlt_le, Rinv_0_lt_compat. pose proof (pos_INR (length (map f l))). lra.
Qed.

Lemma square_close S s d t : 0 <= S -> 0 <= s -> 0 <= t -> / 2 ^ 53 <= d <= / 100 -> Rabs (s - S) <= d * S + t -> Rabs (s * s - S * S) <= 22 / 10 * d * (S * S) + 2 ^ 60 * (t * t).
Proof.
  intros PS Ps Pt Hd H. replace (s * s - S * S) with ((s - S) * (s + S)) by ring. rewrite Rabs_mult, (Rabs_pos_eq (s + S)) by lra.
  assert (U : s + S <= (2 + d) * S + t) by (apply Rabs_le_inv in H; lra).
  apply Rle_trans with ((d * S + t) * ((2 + d) * S + t)); [apply Rmult_le_compat; try lra; apply Rabs_pos|].
  assert (C : S * t <= d / 40 * (S * S) + 10 * 2 ^ 53 * (t * t)).
  { assert (Q : 0 <= (S * d - 20 * t) * (S * d - 20 * t)) by apply Rle_0_sqr.
    assert (I : S * t * d <= S * S * (d * d) / 40 + 10 * (t * t)) by lra.
    apply Rmult_le_reg_r with d; [lra|]. eapply Rle_trans; [exact I|].
    replace ((d / 40 * (S * S) + 10 * 2 ^ 53 * (t * t)) * d) with (S * S * (d * d) / 40 + 10 * (t * t) * (2 ^ 53 * d)) by (unfold Rdiv; ring).
    apply Rplus_le_compat_l. rewrite <- (Rmult_1_r (10 * (t * t))) at 1. apply Rmult_le_compat_l; [apply Rmult_le_pos; [lra|apply Rle_0_sqr]|].
    apply Rmult_le_reg_l with (/ 2 ^ 53); [lra|]. rewrite <- Rmult_assoc, Rinv_l, Rmult_1_l by lra. lra. }
  replace ((d * S + t) * ((2 + d) * S + t)) with (2 * d * (S * S) + d * d * (S * S) + 2 * (S * t) + 2 * (d * (S * t)) + t * t) by ring.
  assert (0 <= S * S) by (apply Rmult_le_pos; lra). assert (0 <= t * t) by (apply Rmult_le_pos; lra). assert (0 <= S * t) by (apply Rmult_le_pos; lra).
  assert (d * (S * t) <= / 100 * (S * t)) by (apply Rmult_le_compat_r; lra).
  assert (D0 : 0 < / 2 ^ 53) by lra.
  assert (d * d * (S * S) <= / 100 * d * (S * S)) by (apply Rmult_le_compat_r; [assumption|]; apply Rmult_le_compat_r; lra).
  replace (2 ^ 60 * (t * t)) with (128 * (2 ^ 53 * (t * t))) by ring.
  assert (T : t * t <= 2 ^ 53 * (t * t)) by (rewrite <- (Rmult_1_l (t * t)) at 1; apply Rmult_le_compat_r; lra).
  replace (10 * 2 ^ 53 * (t * t)) with (10 * (2 ^ 53 * (t * t))) in C by ring.
  revert C T. generalize (2 ^ 53 * (t * t)) as X. intros X C T.
  lra.
Qed.

Lemma half_pow k : / 2 ^ k = 2 * / 2 ^ S k.
Proof. cbn [pow]. rewrite Rinv_mult by (try apply pow_nonzero; lra). lra. Qed.
Lemma pow_pos k : 0 < / 2 ^ k.
Proof. apply Rinv_0_lt_compat, pow_lt. lra. Qed.
Lemma tiny_1070 : 3 * / 2 ^ 1070 <= / 2 ^ 1068.
Proof. rewrite (half_pow 1068), (half_pow 1069). pose proof (pow_pos 1070). lra. Qed.
Lemma tiny_1072 : 2 * / 2 ^ 1072 <= / 2 ^ 1068.
Proof. rewrite (half_pow 1068), (half_pow 1069), (half_pow 1070), (half_pow 1071). pose proof (pow_pos 1072). lra. Qed.
Lemma tiny_530 : 3 * (2 ^ 60 * (/ 2 ^ 530 * / 2 ^ 530)) <= / 2 ^ 990.
Proof.
  rewrite <- Rinv_mult by (apply pow_nonzero; lra). rewrite <- pow_add. change (530 + 530)%nat with (60 + 1000)%nat. rewrite pow_add, Rinv_mult by (apply pow_nonzero; lra).
  rewrite <- Rmult_assoc, <- (Rmult_assoc _ (/ 2 ^ 60)), (Rmult_assoc 3), Rinv_r, Rmult_1_r by (apply pow_nonzero; lra).
  rewrite (half_pow 990), (half_pow 991). replace 1000%nat with (992 + 8)%nat by reflexivity. rewrite pow_add, Rinv_mult by (apply pow_nonzero; lra).
  pose proof (pow_pos 992) as P. revert P. generalize (/ 2 ^ 992). intros x P. lra.
Qed.

Lemma pool_float r1 p1 r2 p2 ps qs n1 n2 t : length r1 = n1 -> length p1 = n1 -> length r2 = n2 -> length p2 = n2 ->
  float_pairs r1 p1 ps -> float_pairs r2 p2 qs -> ps <> [] -> qs <> [] -> INR (length ps + length qs) <= 2 ^ 20 ->
  (forall q, In q (ps ++ qs) -> Rabs (fst q) <= 2 ^ 200 /\ Rabs (snd q) <= 2 ^ 200) ->
  exists e1 e2 e a1 a2 a s1 s2 s x1 x2 x y1 y2 y,
  calc_rain_error_performance_metrics (mk_arr [n1] r1) (mk_arr [n1] p1) t = Ok e1 /\
  calc_rain_error_performance_metrics (mk_arr [n2] r2) (mk_arr [n2] p2) t = Ok e2 /\
  calc_rain_error_performance_metrics (mk_arr [(n1 + n2)%nat] (r1 ++ r2)) (mk_arr [(n1 + n2)%nat] (p1 ++ p2)) t = Ok e /\
  is_num (mean_absolute_error e1) a1 /\ is_num (mean_absolute_error e2) a2 /\ is_num (mean_absolute_error e) a /\
  is_num (root_mean_square_error e1) s1 /\ is_num (root_mean_square_error e2) s2 /\ is_num (root_mean_square_error e) s /\
  is_num (R_mean_reference e1) x1 /\ is_num (R_mean_reference e2) x2 /\ is_num (R_mean_reference e) x /\
  is_num (R_mean_predicted e1) y1 /\ is_num (R_mean_predicted e2) y2 /\ is_num (R_mean_predicted e) y /\
  let N1 := INR (n1 - re_N_nan_pairs e1) in let N2 := INR (n2 - re_N_nan_pairs e2) in
  let N := N1 + N2 in
  Rabs (N * a - (N1 * a1 + N2 * a2)) <= 11 * N / 2 ^ 53 * (N * a) + N * / 2 ^ 1068 /\
  Rabs (N * (s * s) - (N1 * (s1 * s1) + N2 * (s2 * s2))) <= 50 * N / 2 ^ 53 * (N * (s * s)) + N * / 2 ^ 990 /\
  Rabs (N * x - (N1 * x1 + N2 * x2)) <= 8 * N / 2 ^ 53 * rsum (map Rabs (map fst (ps ++ qs))) + N * / 2 ^ 1068 /\
  Rabs (N * y - (N1 * y1 + N2 * y2)) <= 8 * N / 2 ^ 53 * rsum (map Rabs (map snd (ps ++ qs))) + N * / 2 ^ 1068 /\
  Rmin a1 a2 * (1 - 15 * N / 2 ^ 53) - / 2 ^ 1068 <= a <= Rmax a1 a2 * (1 + 15 * N / 2 ^ 53) + / 2 ^ 1068 /\
  Rmin s1 s2 * (1 - 30 * N / 2 ^ 53) - / 2 ^ 528 <= s <= Rmax s1 s2 * (1 + 30 * N / 2 ^ 53) + / 2 ^ 528.
Proof.
  intros A1 B1 A2 B2 F1 F2 Q1 Q2 L M.
  assert (E1 : length r1 = length p1) by congruence. assert (E2 : length r2 = length p2) by congruence.
  pose proof (float_pairs_app _ _ _ _ _ _ E1 F1 F2) as F. pose proof (INR_length_pos ps Q1) as P1. pose proof (INR_length_pos qs Q2) as P2. rewrite plus_INR in L.
  destruct (C54_float_errors r1 p1 ps n1 t A1 B1 F1 Q1 ltac:(lra) ltac:(intros q I; apply M, in_or_app; auto)) as (e1 & a1 & s1 & x1 & y1 & C1 & a1n & s1n & x1n & y1n & a1p & s1p & Wa1 & Ws1 & Wx1 & Wy1 & _).
  destruct (C54_float_errors r2 p2 qs n2 t A2 B2 F2 Q2 ltac:(lra) ltac:(intros q I; apply M, in_or_app; auto)) as (e2 & a2 & s2 & x2 & y2 & C2 & a2n & s2n & x2n & y2n & a2p & s2p & Wa2 & Ws2 & Wx2 & Wy2 & _).
  destruct (C54_float_errors (r1 ++ r2) (p1 ++ p2) (ps ++ qs) (n1 + n2) t) as (e & a & s & x & y & C & an & sn & xn & yn & ap & sp & Wa & Ws & Wx & Wy & _);
    try (rewrite app_length; lia); auto.
  { destruct ps; [congruence|discriminate]. } { rewrite app_length, plus_INR. assumption. }
  exists e1, e2, e, a1, a2, a, s1, s2, s, x1, x2, x, y1, y2, y. do 15 (split; [assumption|]). intros N1 N2 N.
  assert (EN1 : N1 = INR (length ps)) by (apply (float_pairs_length _ _ _ _ _ _ A1 B1 F1 C1)).
  assert (EN2 : N2 = INR (length qs)) by (apply (float_pairs_length _ _ _ _ _ _ A2 B2 F2 C2)).
  assert (EN : N = INR (length (ps ++ qs))) by (unfold N; rewrite app_length, plus_INR; congruence).
  assert (W : forall f : R * R -> R, ((INR (length ps) + INR (length qs)) * rmean (map f (ps ++ qs)) = INR (length ps) * rmean (map f ps) + INR (length qs) * rmean (map f qs))).
  { intros f. rewrite map_app, <- (map_length f ps), <- (map_length f qs). apply rmean_app; apply map_nil_iff; assumption. }
  assert (MS : forall f : R * R -> R, rsum (map f (ps ++ qs)) = N * rmean (map f (ps ++ qs))).
  { intros f. unfold rmean. rewrite map_length, <- EN. field. unfold N. lra. }
  assert (l1 : (length ps <= length (ps ++ qs))%nat) by (rewrite app_length; lia). assert (l2 : (length qs <= length (ps ++ qs))%nat) by (rewrite app_length; lia).
  assert (np : forall f l, 0 <= rmean (map Rabs (map (f : R * R -> R) l))) by (intros; rewrite map_map; apply rmean_map_nonneg; intros; apply Rabs_pos).
  assert (Mp : forall l, 0 <= MAE l) by (intros l; unfold MAE, diffs; apply np). assert (Sp : forall l, 0 <= RMSE l) by (intros l; apply sqrt_pos).
  apply (within_more 5 _ _ _ _ _ _ ltac:(lra) (Mp _) l1) in Wa1. apply (within_more 5 _ _ _ _ _ _ ltac:(lra) (Mp _) l2) in Wa2. 
  apply (within_more 10 _ _ _ _ _ _ ltac:(lra) (Sp _) l1) in Ws1. apply (within_more 10 _ _ _ _ _ _ ltac:(lra) (Sp _) l2) in Ws2. 
  apply (within_more 4 _ _ _ _ _ _ ltac:(lra) (np _ _) l1) in Wx1. apply (within_more 4 _ _ _ _ _ _ ltac:(lra) (np _ _) l2) in Wx2. 
  apply (within_more 4 _ _ _ _ _ _ ltac:(lra) (np _ _) l1) in Wy1. apply (within_more 4 _ _ _ _ _ _ ltac:(lra) (np _ _) l2) in Wy2. 
  unfold within in Wa, Ws, Wx, Wy. rewrite <- EN in *.
  assert (HN : 1 <= N <= 2 ^ 20).
  { split; [rewrite EN; apply (le_INR 1); destruct ps; [congruence|cbn; lia]|]. unfold N. rewrite EN1, EN2. lra. }
  assert (PN1 : 0 < N1) by lra. assert (PN2 : 0 < N2) by lra.
  assert (WM : (N1 + N2) * MAE (ps ++ qs) = N1 * MAE ps + N2 * MAE qs) by (rewrite EN1, EN2; unfold MAE, diffs; rewrite !map_map; apply W).
  assert (WS : (N1 + N2) * (RMSE (ps ++ qs) * RMSE (ps ++ qs)) = N1 * (RMSE ps * RMSE ps) + N2 * (RMSE qs * RMSE qs)) by (rewrite EN1, EN2, !RMSE_sq; unfold diffs; rewrite !map_map; apply W).
  assert (D : 0 <= N / 2 ^ 53 <= / 10000000) by (split; [apply Rmult_le_pos; lra|]; apply Rmult_le_reg_r with (2 ^ 53); [lra|]; unfold Rdiv; rewrite Rmult_assoc, Rinv_l, Rmult_1_r by lra; lra).
  assert (D1 : / 2 ^ 53 <= N / 2 ^ 53) by (unfold Rdiv; rewrite <- (Rmult_1_l (/ 2 ^ 53)) at 1; apply Rmult_le_compat_r; lra).
  replace (5 * N / 2 ^ 53) with (5 * (N / 2 ^ 53)) in * by (unfold Rdiv; ring). replace (10 * N / 2 ^ 53) with (10 * (N / 2 ^ 53)) in * by (unfold Rdiv; ring).
  replace (4 * N / 2 ^ 53) with (4 * (N / 2 ^ 53)) in * by (unfold Rdiv; ring).
  replace (11 * N / 2 ^ 53) with (11 * (N / 2 ^ 53)) by (unfold Rdiv; ring). replace (50 * N / 2 ^ 53) with (50 * (N / 2 ^ 53)) by (unfold Rdiv; ring).
  replace (8 * N / 2 ^ 53) with (8 * (N / 2 ^ 53)) by (unfold Rdiv; ring). replace (15 * N / 2 ^ 53) with (15 * (N / 2 ^ 53)) by (unfold Rdiv; ring). replace (30 * N / 2 ^ 53) with (30 * (N / 2 ^ 53)) by (unfold Rdiv; ring).
  rewrite !map_map, !MS.
  pose proof tiny_1070 as T70. pose proof tiny_1072 as T72. pose proof tiny_530 as T53. pose proof (pow_pos 1070) as TP70. pose proof (pow_pos 1072) as TP72. pose proof (pow_pos 530) as TP530. 
  assert (T28 : 4 * / 2 ^ 530 = / 2 ^ 528) by (rewrite (half_pow 528), (half_pow 529); lra). assert (T68 : 4 * / 2 ^ 1070 = / 2 ^ 1068) by (rewrite (half_pow 1068), (half_pow 1069); lra).
  revert T70 T72 T53 TP70 TP72 TP530 T28 T68 D D1 Wa1 Wa2 Wa Ws1 Ws2 Ws Wx1 Wx2 Wx Wy1 Wy2 Wy. 
  generalize (/ 2 ^ 1068) (/ 2 ^ 1070) (/ 2 ^ 1072) (/ 2 ^ 990) (/ 2 ^ 530) (/ 2 ^ 528) (N / 2 ^ 53). clear L M.
  intros t68 t70 t72 t990 t530 t528 d T70 T72 T53 TP70 TP72 TP530 T28 T68 D D1 Wa1 Wa2 Wa Ws1 Ws2 Ws Wx1 Wx2 Wx Wy1 Wy2 Wy.
  assert (TN : forall u v, u <= v -> N * u <= N * v) by (intros; apply Rmult_le_compat_l; lra).
  split; [|split; [|split; [|split; [|split]]]].
  - pose proof (weighted_close N1 N2 _ _ _ a1 a2 a (5 * d) t70 PN1 PN2 (Mp ps) (Mp qs) (Mp (ps ++ qs)) ltac:(lra) ltac:(lra) WM Wa1 Wa2 Wa) as H. fold N in H.
    pose proof (TN _ _ T70). lra.
  - assert (d' : / 2 ^ 53 <= 10 * d <= / 100) by (clear - D D1; lra).
    assert (Zt : 0 <= 2 ^ 60 * (t530 * t530)) by (apply Rmult_le_pos; [lra|apply Rmult_le_pos; lra]).
    pose proof (weighted_close N1 N2 _ _ _ (s1 * s1) (s2 * s2) (s * s) (22 / 10 * (10 * d)) (2 ^ 60 * (t530 * t530)) PN1 PN2
      (Rmult_le_pos _ _ (Sp ps) (Sp ps)) (Rmult_le_pos _ _ (Sp qs) (Sp qs)) (Rmult_le_pos _ _ (Sp (ps ++ qs)) (Sp (ps ++ qs))) Zt ltac:(clear - D; lra) WS
      (square_close _ _ _ _ (Sp ps) s1p (Rlt_le _ _ TP530) d' Ws1) (square_close _ _ _ _ (Sp qs) s2p (Rlt_le _ _ TP530) d' Ws2) (square_close _ _ _ _ (Sp (ps ++ qs)) sp (Rlt_le _ _ TP530) d' Ws)) as H. fold N in H.
    pose proof (TN _ _ T53) as T. assert (0 <= d * (N * (s * s))) by (apply Rmult_le_pos; [lra|]; apply Rmult_le_pos; [lra|]; apply Rmult_le_pos; lra).
    revert H T. generalize (2 ^ 60 * (t530 * t530)). intros z H T. lra.
  - pose proof (weighted_close_abs N1 N2 _ _ _ _ _ _ x1 x2 x (4 * d) t72 PN1 PN2 (eq_trans (f_equal2 (fun u v => (u + v) * _) EN1 EN2) (eq_trans (W fst) (eq_sym (f_equal2 (fun u v => u * _ + v * _) EN1 EN2))))
      (eq_trans (f_equal2 (fun u v => (u + v) * _) EN1 EN2) (eq_trans (W (fun q => Rabs (fst q))) (eq_sym (f_equal2 (fun u v => u * _ + v * _) EN1 EN2))))) as H. rewrite !map_map in Wx1, Wx2, Wx. specialize (H Wx1 Wx2 Wx). fold N in H.
    pose proof (TN _ _ T72). lra.
  - pose proof (weighted_close_abs N1 N2 _ _ _ _ _ _ y1 y2 y (4 * d) t72 PN1 PN2 (eq_trans (f_equal2 (fun u v => (u + v) * _) EN1 EN2) (eq_trans (W snd) (eq_sym (f_equal2 (fun u v => u * _ + v * _) EN1 EN2))))
      (eq_trans (f_equal2 (fun u v => (u + v) * _) EN1 EN2) (eq_trans (W (fun q => Rabs (snd q))) (eq_sym (f_equal2 (fun u v => u * _ + v * _) EN1 EN2))))) as H. rewrite !map_map in Wy1, Wy2, Wy. specialize (H Wy1 Wy2 Wy). fold N in H.
    pose proof (TN _ _ T72). lra.
  - pose proof (between_close _ _ _ a1 a2 a (5 * d) t70 (Mp ps) (Mp qs) (Mp (ps ++ qs)) ltac:(lra) ltac:(lra) a1p a2p (weighted_between _ _ _ _ _ PN1 PN2 WM) Wa1 Wa2 Wa) as H. lra.
  - pose proof (between_close _ _ _ s1 s2 s (10 * d) t530 (Sp ps) (Sp qs) (Sp (ps ++ qs)) ltac:(lra) ltac:(lra) s1p s2p (square_between _ _ _ _ _ PN1 PN2 (Sp _) (Sp _) (Sp _) WS) Ws1 Ws2 Ws) as H. lra.
Qed.
