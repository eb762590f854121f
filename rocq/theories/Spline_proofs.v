From Coq Require Import List ZArith Reals Lra Lia Psatz Bool.
From Verif Require Import Base RealSpec Spline_spec.
Import ListNotations.
Local Open Scope R_scope.

(** a finite maximum *)
Lemma argmax (f : nat -> R) n : exists k, (k <= n)%nat /\ forall i, (i <= n)%nat -> f i <= f k.
Proof.
  induction n as [|n (k & Hk & Hm)].
  - exists 0%nat; split; auto. intros i Hi. replace i with 0%nat by lia. lra.
  - destruct (Rle_lt_dec (f (S n)) (f k)).
    + exists k; split; [lia|]. intros i Hi. destruct (Nat.eq_dec i (S n)); [subst; auto|apply Hm; lia].
    + exists (S n); split; auto. intros i Hi. destruct (Nat.eq_dec i (S n)); [subst; lra|].
      assert (f i <= f k) by (apply Hm; lia). lra.
Qed.

(** Strictly diagonally dominant tridiagonal rows bound the solution. *)
Section Dominant.
Variables (N : nat) (h e : nat -> R) (rho : R).
Hypothesis N4 : (4 <= N)%nat.
Hypothesis hpos : forall i, (i + 1 < N)%nat -> 0 < h i.
Hypothesis hsum : forall i, (i + 2 < N)%nat -> 1 <= h i + h (i + 1)%nat.
Hypothesis end0 : h 0%nat <= h 1%nat.
Hypothesis end1 : h (N - 2)%nat <= h (N - 3)%nat.
Hypothesis nak0 : (e 1%nat - e 0%nat) * h 1%nat = (e 2%nat - e 1%nat) * h 0%nat.
Hypothesis nak1 : (e (N - 2)%nat - e (N - 3)%nat) * h (N - 2)%nat = (e (N - 1)%nat - e (N - 2)%nat) * h (N - 3)%nat.
Hypothesis rows : forall i, (i + 2 < N)%nat ->
  Rabs (h i * e i + 2 * (h i + h (i + 1)%nat) * e (i + 1)%nat + h (i + 1)%nat * e (i + 2)%nat) <= rho.

Lemma rho_pos : 0 <= rho.
Proof. pose proof (rows 0 ltac:(lia)). eapply Rle_trans; [apply Rabs_pos|eauto]. Qed.

Lemma inner_bound : forall i, (1 <= i <= N - 2)%nat -> Rabs (e i) <= rho.
Proof.
  destruct (argmax (fun i => Rabs (e (i + 1)%nat)) (N - 3)) as (k & Hk & Hmax).
  assert (B : forall i, (1 <= i <= N - 2)%nat -> Rabs (e i) <= Rabs (e (k + 1)%nat)).
  { intros i Hi. specialize (Hmax (i - 1)%nat ltac:(lia)). simpl in Hmax. replace (i - 1 + 1)%nat with i in Hmax by lia. auto. }
  assert (E : Rabs (e (k + 1)%nat) <= rho); [|intros; eapply Rle_trans; [apply B|]; auto].
  pose proof (rows k ltac:(lia)) as Hrow. pose proof (hsum k ltac:(lia)) as Hs.
  pose proof (hpos k ltac:(lia)) as P0. pose proof (hpos (k + 1)%nat ltac:(lia)) as P1.
  pose proof rho_pos as RP.
  set (E := Rabs (e (k + 1)%nat)) in *. assert (0 <= E) by apply Rabs_pos.
  assert (abs_ub : forall a, Rabs a <= E -> - E <= a <= E).
  { intros a Ha. unfold Rabs in Ha. destruct (Rcase_abs a); lra. }
  assert (rowb : - rho <= h k * e k + 2 * (h k + h (k + 1)%nat) * e (k + 1)%nat + h (k + 1)%nat * e (k + 2)%nat <= rho).
  { revert Hrow. unfold Rabs. destruct (Rcase_abs _); lra. }
  assert (Ecase : e (k + 1)%nat = E \/ e (k + 1)%nat = - E).
  { unfold E, Rabs. destruct (Rcase_abs _); [right|left]; lra. }
  destruct (Nat.eq_dec k 0) as [K0|K0].
  - (* first row *)
    subst k. simpl in *.
    pose proof (abs_ub _ (B 2%nat ltac:(lia))) as B2.
    set (h0 := h 0%nat) in *. set (h1 := h 1%nat) in *.
    (* e0 = e1 + (e1 - e2) * h0 / h1 *)
    assert (E0 : e 0%nat = e 1%nat + (e 1%nat - e 2%nat) * (h0 / h1)).
    { apply Rmult_eq_reg_r with h1; [|lra]. field_simplify; [|lra]. nra. }
    set (r := h0 / h1) in *.
    assert (Hr : 0 < r) by (apply Rdiv_lt_0_compat; auto).
    assert (Hr1 : r * h1 = h0) by (unfold r; field; lra).
    assert (r <= 1) by nra.
    rewrite E0 in rowb.
    replace (h0 * (e 1%nat + (e 1%nat - e 2%nat) * r) + 2 * (h0 + h1) * e 1%nat + h1 * e 2%nat)
      with ((3 * h0 + h0 * r + 2 * h1) * e 1%nat + (h1 - h0 * r) * e 2%nat) in rowb by ring.
    assert (C1 : 0 <= h1 - h0 * r) by nra.
    assert (C2 : (h1 - h0 * r) * E <= (h1 - h0 * r) * E) by lra.
    assert (T : - ((h1 - h0 * r) * E) <= (h1 - h0 * r) * e 2%nat <= (h1 - h0 * r) * E) by (split; nra).
    assert (Q : (3 * h0 + 2 * h0 * r + h1) * E <= rho).
    { destruct Ecase as [Ec|Ec]; rewrite Ec in rowb; nra. }
    nra.
  - destruct (Nat.eq_dec k (N - 3)) as [K1|K1].
    + (* last row *)
      subst k. replace (N - 3 + 1)%nat with (N - 2)%nat in * by lia. replace (N - 3 + 2)%nat with (N - 1)%nat in * by lia.
      pose proof (abs_ub _ (B (N - 3)%nat ltac:(lia))) as B2.
      set (h0 := h (N - 2)%nat) in *. set (h1 := h (N - 3)%nat) in *.
      set (e1 := e (N - 2)%nat) in *. set (e2 := e (N - 3)%nat) in *. set (e0 := e (N - 1)%nat) in *.
      assert (E0 : e0 = e1 + (e1 - e2) * (h0 / h1)).
      { apply Rmult_eq_reg_r with h1; [|lra]. field_simplify; [|lra]. nra. }
      set (r := h0 / h1) in *.
      assert (Hr : 0 < r) by (apply Rdiv_lt_0_compat; auto).
      assert (Hr1 : r * h1 = h0) by (unfold r; field; lra).
      assert (r <= 1) by nra.
      rewrite E0 in rowb.
      replace (h1 * e2 + 2 * (h1 + h0) * e1 + h0 * (e1 + (e1 - e2) * r))
        with ((3 * h0 + h0 * r + 2 * h1) * e1 + (h1 - h0 * r) * e2) in rowb by ring.
      assert (C1 : 0 <= h1 - h0 * r) by nra.
      assert (T : - ((h1 - h0 * r) * E) <= (h1 - h0 * r) * e2 <= (h1 - h0 * r) * E) by (split; nra).
      assert (Q : (3 * h0 + 2 * h0 * r + h1) * E <= rho).
      { destruct Ecase as [Ec|Ec]; rewrite Ec in rowb; nra. }
      nra.
    + (* inner row *)
      pose proof (abs_ub _ (B k ltac:(lia))) as B0. pose proof (abs_ub _ (B (k + 2)%nat ltac:(lia))) as B2.
      assert (T0 : - (h k * E) <= h k * e k <= h k * E) by (split; nra).
      assert (T2 : - (h (k + 1)%nat * E) <= h (k + 1)%nat * e (k + 2)%nat <= h (k + 1)%nat * E) by (split; nra).
      assert (Q : (h k + h (k + 1)%nat) * E <= rho).
      { destruct Ecase as [Ec|Ec]; rewrite Ec in rowb; nra. }
      nra.
Qed.

Lemma end_bound (a0 a1 a2 h0 h1 : R) : 0 < h0 -> 0 < h1 -> h0 <= h1 ->
  (a1 - a0) * h1 = (a2 - a1) * h0 -> Rabs a1 <= rho -> Rabs a2 <= rho -> Rabs a0 <= 3 * rho.
Proof.
  intros P0 P1 Hle E B1 B2. pose proof rho_pos.
  assert (E0 : a0 = a1 + (a1 - a2) * (h0 / h1)).
  { apply Rmult_eq_reg_r with h1; [|lra]. field_simplify; [|lra]. nra. }
  set (r := h0 / h1) in *.
  assert (Hr : 0 < r) by (apply Rdiv_lt_0_compat; auto).
  assert (Hr1 : r * h1 = h0) by (unfold r; field; lra).
  assert (r <= 1) by nra.
  assert (- rho <= a1 <= rho) by (revert B1; unfold Rabs; destruct (Rcase_abs a1); lra).
  assert (- rho <= a2 <= rho) by (revert B2; unfold Rabs; destruct (Rcase_abs a2); lra).
  assert (- (2 * rho) <= (a1 - a2) * r <= 2 * rho) by (split; nra).
  rewrite E0. unfold Rabs. destruct (Rcase_abs _); lra.
Qed.

Lemma all_bound : forall i, (i < N)%nat -> Rabs (e i) <= 3 * rho.
Proof.
  intros i Hi. pose proof rho_pos.
  destruct (Nat.eq_dec i 0) as [->|].
  - apply (end_bound _ (e 1%nat) (e 2%nat) (h 0%nat) (h 1%nat)); auto; try (apply inner_bound; lia); apply hpos; lia.
  - destruct (Nat.eq_dec i (N - 1)) as [->|].
    + apply (end_bound _ (e (N - 2)%nat) (e (N - 3)%nat) (h (N - 2)%nat) (h (N - 3)%nat)); auto;
        try (apply inner_bound; lia); try (apply hpos; lia). lra.
    + pose proof (inner_bound i ltac:(lia)). lra.
Qed.
End Dominant.

(** positivity of a cubic from its Bernstein coefficients *)
Lemma bernstein_pos y0 y1 b1 b2 u : 0 < y0 -> 0 < y1 -> 0 < b1 -> 0 < b2 -> 0 <= u <= 1 ->
  0 < y0 * (1 - u) ^ 3 + 3 * b1 * u * (1 - u) ^ 2 + 3 * b2 * u ^ 2 * (1 - u) + y1 * u ^ 3.
Proof.
  intros. assert (0 <= 1 - u) by lra.
  assert (A1 : 0 <= 3 * b1 * u * (1 - u) ^ 2) by (repeat apply Rmult_le_pos; try lra; apply pow_le; auto).
  assert (A2 : 0 <= 3 * b2 * u ^ 2 * (1 - u)) by (repeat apply Rmult_le_pos; try lra; apply pow_le; lra).
  assert (P1 : 0 <= y0 * (1 - u) ^ 3) by (apply Rmult_le_pos; [lra|apply pow_le; auto]).
  assert (P2 : 0 <= y1 * u ^ 3) by (apply Rmult_le_pos; [lra|apply pow_le; lra]).
  destruct (Rle_lt_dec u (1 / 2)).
  - assert (0 < y0 * (1 - u) ^ 3) by (apply Rmult_lt_0_compat; auto; apply pow_lt; lra). lra.
  - assert (0 < y1 * u ^ 3) by (apply Rmult_lt_0_compat; auto; apply pow_lt; lra). lra.
Qed.

(** ** from the spline to its second derivatives *)
Section Spline.
Variables (xs ys : list R) (s : R -> R).
Notation N := (length xs).
Notation x := (rget xs).
Notation y := (rget ys).
Definition hh (i : nat) : R := rget xs (i + 1) - rget xs i.
Hypothesis N4 : (4 <= N)%nat.
Hypothesis inc : forall i, (i + 1 < N)%nat -> x i < x (i + 1)%nat.

Definition second_derivs (M : nat -> R) : Prop :=
  (forall i t, (i + 1 < N)%nat -> x i <= t <= x (i + 1)%nat ->
     s t = y i + ((y (i + 1)%nat - y i) / hh i - hh i * (2 * M i + M (i + 1)%nat) / 6) * (t - x i)
         + M i / 2 * (t - x i) ^ 2 + (M (i + 1)%nat - M i) / (6 * hh i) * (t - x i) ^ 3) /\
  (forall i, (i + 2 < N)%nat ->
     hh i * M i + 2 * (hh i + hh (i + 1)) * M (i + 1)%nat + hh (i + 1) * M (i + 2)%nat =
     6 * ((y (i + 2)%nat - y (i + 1)%nat) / hh (i + 1) - (y (i + 1)%nat - y i) / hh i)) /\
  (M 1%nat - M 0%nat) * hh 1 = (M 2%nat - M 1%nat) * hh 0 /\
  (M (N - 2)%nat - M (N - 3)%nat) * hh (N - 2) = (M (N - 1)%nat - M (N - 2)%nat) * hh (N - 3).

Lemma hh_pos i : (i + 1 < N)%nat -> 0 < hh i.
Proof. intros H. unfold hh. pose proof (inc i H). lra. Qed.

Lemma spline_second_derivs : notaknot_spline xs ys s -> exists M, second_derivs M.
Proof.
  intros (c1 & c2 & c3 & Hp & Hi & Hs & He0 & He1). cbv zeta in *.
  exists (fun i => if Nat.eqb i (N - 1) then 2 * c2 (N - 2)%nat + 6 * c3 (N - 2)%nat * hh (N - 2) else 2 * c2 i).
  set (M := fun i => if Nat.eqb i (N - 1) then _ else _).
  assert (M1 : forall i, (i + 1 < N)%nat -> M i = 2 * c2 i).
  { intros i H. unfold M. destruct (Nat.eqb_spec i (N - 1)); [lia|auto]. }
  assert (M2 : forall i, (i + 1 < N)%nat -> M (i + 1)%nat = 2 * c2 i + 6 * c3 i * hh i).
  { intros i H. destruct (Nat.eq_dec i (N - 2)).
    - subst i. unfold M. destruct (Nat.eqb_spec (N - 2 + 1) (N - 1)); [auto|lia].
    - rewrite M1 by lia. destruct (Hs i ltac:(lia)) as [_ E]. unfold hh. lra. }
  assert (C3 : forall i, (i + 1 < N)%nat -> c3 i = (M (i + 1)%nat - M i) / (6 * hh i)).
  { intros i H. pose proof (hh_pos i H). rewrite (M2 i), (M1 i) by auto. field. lra. }
  assert (C1 : forall i, (i + 1 < N)%nat -> c1 i = (y (i + 1)%nat - y i) / hh i - hh i * (2 * M i + M (i + 1)%nat) / 6).
  { intros i H. pose proof (hh_pos i H) as P.
    assert (E : y (i + 1)%nat = y i + c1 i * hh i + c2 i * hh i ^ 2 + c3 i * hh i ^ 3).
    { rewrite <- (Hi (i + 1)%nat) by lia. pose proof (inc i H). rewrite (Hp i (x (i + 1)%nat) H) by (split; lra). reflexivity. }
    rewrite (M2 i), (M1 i) by auto. rewrite E. field. lra. }
  split; [|split; [|split]].
  - intros i t H Ht. rewrite (Hp i t H Ht). rewrite <- C1, <- C3 by auto. rewrite M1 by auto. field.
  - intros i H. destruct (Hs i H) as [E1 E2]. rewrite !C1 in E1 by lia. rewrite C3 in E1 by lia.
    replace (2 * c2 i) with (M i) in * by (rewrite M1 by lia; auto).
    change (x (i + 1)%nat - x i) with (hh i) in *.
    replace (i + 1 + 1)%nat with (i + 2)%nat in E1 by lia.
    pose proof (hh_pos i ltac:(lia)). pose proof (hh_pos (i + 1) ltac:(lia)).
    set (d1 := (y (i + 2)%nat - y (i + 1)%nat) / hh (i + 1)) in *.
    set (d0 := (y (i + 1)%nat - y i) / hh i) in *.
    assert (E3 : 3 * ((M (i + 1)%nat - M i) / (6 * hh i)) * hh i ^ 2 = (M (i + 1)%nat - M i) * hh i / 2) by (field; lra).
    rewrite E3 in E1. lra.
  - rewrite (C3 0%nat), (C3 1%nat) in He0 by lia. simpl in He0.
    pose proof (hh_pos 0 ltac:(lia)). pose proof (hh_pos 1 ltac:(lia)).
    apply (f_equal (fun z => z * (6 * hh 0 * hh 1))) in He0. field_simplify in He0; try lra.
  - rewrite (C3 (N - 3)%nat), (C3 (N - 2)%nat) in He1 by lia.
    replace (N - 3 + 1)%nat with (N - 2)%nat in He1 by lia. replace (N - 2 + 1)%nat with (N - 1)%nat in He1 by lia.
    pose proof (hh_pos (N - 3) ltac:(lia)). pose proof (hh_pos (N - 2) ltac:(lia)).
    apply (f_equal (fun z => z * (6 * hh (N - 3) * hh (N - 2)))) in He1. field_simplify in He1; try lra.
Qed.

(** ** positivity from an approximate solution *)
Variables (m : nat -> R) (rho : R).
Hypothesis hsum : forall i, (i + 2 < N)%nat -> 1 <= hh i + hh (i + 1).
Hypothesis end0 : hh 0 <= hh 1.
Hypothesis end1 : hh (N - 2) <= hh (N - 3).
Hypothesis mnak0 : (m 1%nat - m 0%nat) * hh 1 = (m 2%nat - m 1%nat) * hh 0.
Hypothesis mnak1 : (m (N - 2)%nat - m (N - 3)%nat) * hh (N - 2) = (m (N - 1)%nat - m (N - 2)%nat) * hh (N - 3).
Hypothesis mrows : forall i, (i + 2 < N)%nat ->
  Rabs (hh i * m i + 2 * (hh i + hh (i + 1)) * m (i + 1)%nat + hh (i + 1) * m (i + 2)%nat -
     6 * ((y (i + 2)%nat - y (i + 1)%nat) / hh (i + 1) - (y (i + 1)%nat - y i) / hh i)) <= rho.
Hypothesis ypos : forall i, (i < N)%nat -> 0 < y i.
Hypothesis bern : forall i, (i + 1 < N)%nat ->
  hh i ^ 2 * rho / 2 < (2 * y i + y (i + 1)%nat) / 3 - hh i ^ 2 * (2 * m i + m (i + 1)%nat) / 18 /\
  hh i ^ 2 * rho / 2 < (y i + 2 * y (i + 1)%nat) / 3 - hh i ^ 2 * (m i + 2 * m (i + 1)%nat) / 18.

Lemma piece_exists t : x 0%nat <= t <= x (N - 1)%nat ->
  exists i, (i + 1 < N)%nat /\ x i <= t <= x (i + 1)%nat.
Proof.
  intros Ht. assert (G : forall k, (k < N)%nat -> t <= x k -> k <> 0%nat -> exists i, (i + 1 < N)%nat /\ x i <= t <= x (i + 1)%nat).
  { induction k; intros Hk Le Nz; [congruence|]. destruct (Rle_lt_dec (x k) t).
    - exists k. replace (k + 1)%nat with (S k) by lia. split; auto.
    - destruct k; [lra|]. apply IHk; try lia; try lra. }
  apply (G (N - 1)%nat); try lia; lra.
Qed.

Lemma spline_positive : notaknot_spline xs ys s ->
  forall t, x 0%nat <= t <= x (N - 1)%nat -> 0 < s t.
Proof.
  intros Hs t Ht. destruct (spline_second_derivs Hs) as (M & Sp & Row & K0 & K1).
  destruct (piece_exists t Ht) as (i & Hi & Hti).
  assert (AB : forall j, (j < N)%nat -> Rabs (M j - m j) <= 3 * rho).
  { apply (all_bound N hh (fun j => M j - m j) rho); auto.
    - intros; apply hh_pos; auto.
    - lra.
    - lra.
    - intros j Hj. specialize (mrows j Hj). specialize (Row j Hj).
      rewrite Rabs_minus_sym in mrows. eapply Rle_trans; [|apply mrows]. right. f_equal. lra. }
  rewrite (Sp i t Hi Hti). pose proof (hh_pos i Hi) as P.
  set (u := (t - x i) / hh i).
  assert (Hu : 0 <= u <= 1).
  { unfold u. split; [apply Rmult_le_pos; [lra|left; apply Rinv_0_lt_compat; auto]|].
    apply Rmult_le_reg_r with (hh i); auto. unfold Rdiv. rewrite Rmult_assoc, Rinv_l, Rmult_1_r, Rmult_1_l by lra.
    unfold hh. lra. }
  assert (Et : t - x i = u * hh i) by (unfold u; field; lra).
  set (b1 := (2 * y i + y (i + 1)%nat) / 3 - hh i ^ 2 * (2 * M i + M (i + 1)%nat) / 18).
  set (b2 := (y i + 2 * y (i + 1)%nat) / 3 - hh i ^ 2 * (M i + 2 * M (i + 1)%nat) / 18).
  replace (y i + ((y (i + 1)%nat - y i) / hh i - hh i * (2 * M i + M (i + 1)%nat) / 6) * (t - x i)
         + M i / 2 * (t - x i) ^ 2 + (M (i + 1)%nat - M i) / (6 * hh i) * (t - x i) ^ 3)
    with (y i * (1 - u) ^ 3 + 3 * b1 * u * (1 - u) ^ 2 + 3 * b2 * u ^ 2 * (1 - u) + y (i + 1)%nat * u ^ 3).
  2:{ rewrite Et. unfold b1, b2. field. lra. }
  destruct (bern i Hi) as [B1 B2].
  assert (D0 : - (3 * rho) <= M i - m i <= 3 * rho).
  { specialize (AB i ltac:(lia)). revert AB. unfold Rabs. destruct (Rcase_abs _); lra. }
  assert (D1 : - (3 * rho) <= M (i + 1)%nat - m (i + 1)%nat <= 3 * rho).
  { specialize (AB (i + 1)%nat ltac:(lia)). revert AB. unfold Rabs. destruct (Rcase_abs _); lra. }
  assert (H2 : 0 <= hh i ^ 2) by (apply pow_le; lra).
  apply bernstein_pos; auto; try (apply ypos; lia).
  - unfold b1. assert (hh i ^ 2 * (2 * (M i - m i) + (M (i + 1)%nat - m (i + 1)%nat)) <= hh i ^ 2 * (9 * rho))
      by (apply Rmult_le_compat_l; lra). lra.
  - unfold b2. assert (hh i ^ 2 * ((M i - m i) + 2 * (M (i + 1)%nat - m (i + 1)%nat)) <= hh i ^ 2 * (9 * rho))
      by (apply Rmult_le_compat_l; lra). lra.
Qed.
End Spline.
