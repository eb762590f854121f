(** Existence of the not-a-knot spline (so that statements about it are not vacuous). *)
From Coq Require Import List ZArith Reals Lra Lia Psatz Bool.
From Verif Require Import Base RealSpec Spline_spec Spline_proofs.
Import ListNotations.
Local Open Scope R_scope.

(** ** Thomas algorithm *)
Section Thomas.
Variables (n : nat) (a b c d : nat -> R).
Hypothesis dom : forall i, (i <= n)%nat -> Rabs (a i) + Rabs (c i) < Rabs (b i).

Fixpoint pq (i : nat) : R * R :=
  match i with
  | 0%nat => (- c 0%nat / b 0%nat, d 0%nat / b 0%nat)
  | S j => let den := b i + a i * fst (pq j) in (- c i / den, (d i - a i * snd (pq j)) / den)
  end.

Lemma den_ok i (p : R) : (i <= n)%nat -> Rabs p <= 1 -> Rabs (c i) < Rabs (b i + a i * p).
Proof.
  intros Hi Hp. specialize (dom i Hi).
  pose proof (Rabs_triang_inv (b i) (- (a i * p))) as T.
  replace (b i - - (a i * p)) with (b i + a i * p) in T by ring.
  rewrite Rabs_Ropp, Rabs_mult in T. pose proof (Rabs_pos (a i)). pose proof (Rabs_pos p). nra.
Qed.

Lemma abs_pos_neq r x : Rabs r < Rabs x -> x <> 0.
Proof. intros H ->. rewrite Rabs_R0 in H. pose proof (Rabs_pos r). lra. Qed.

Lemma quot_le u v : Rabs u < Rabs v -> Rabs (- u / v) <= 1.
Proof.
  intros H. pose proof (abs_pos_neq _ _ H) as NZ. unfold Rdiv. rewrite Rabs_mult, Rabs_Ropp, Rabs_inv.
  pose proof (Rabs_pos u). assert (0 < Rabs v) by lra.
  apply Rmult_le_reg_r with (Rabs v); auto. rewrite Rmult_assoc, Rinv_l, Rmult_1_r, Rmult_1_l by lra. lra.
Qed.

Lemma p_le i : (i <= n)%nat -> Rabs (fst (pq i)) <= 1.
Proof.
  induction i; intros Hi; cbn [pq]; cbv zeta; cbn [fst].
  - apply quot_le. specialize (dom 0%nat Hi). pose proof (Rabs_pos (a 0%nat)). lra.
  - apply quot_le. apply den_ok; auto. apply IHi; lia.
Qed.

(** back substitution from the end: [back k] is the unknown number [n + 1 - k] *)
Fixpoint back (k : nat) : R :=
  match k with 0%nat => 0 | S j => fst (pq (n - j)) * back j + snd (pq (n - j)) end.
Definition sol (i : nat) : R := back (n + 1 - i).

Lemma sol_rec i : (i <= n)%nat -> sol i = fst (pq i) * sol (i + 1) + snd (pq i).
Proof.
  intros Hi. unfold sol. replace (n + 1 - i)%nat with (S (n - i)) by lia. cbn [back].
  replace (n - (n - i))%nat with i by lia. replace (n + 1 - (i + 1))%nat with (n - i)%nat by lia. reflexivity.
Qed.

Lemma thomas : sol (n + 1) = 0 /\
  b 0%nat * sol 0 + c 0%nat * sol 1 = d 0%nat /\
  forall i, (i + 1 <= n)%nat -> a (i + 1)%nat * sol i + b (i + 1)%nat * sol (i + 1) + c (i + 1)%nat * sol (i + 2) = d (i + 1)%nat.
Proof.
  split; [unfold sol; rewrite Nat.sub_diag; auto|]. split.
  - pose proof (sol_rec 0 ltac:(lia)) as E. simpl in E.
    assert (b 0%nat <> 0). { apply (abs_pos_neq (c 0%nat)). specialize (dom 0%nat ltac:(lia)). pose proof (Rabs_pos (a 0%nat)). lra. }
    rewrite E. field. auto.
  - intros i Hi. pose proof (sol_rec i ltac:(lia)) as E0. pose proof (sol_rec (i + 1) ltac:(lia)) as E1.
    replace (i + 1 + 1)%nat with (i + 2)%nat in E1 by lia.
    pose proof (den_ok (i + 1) _ Hi (p_le i ltac:(lia))) as D. apply abs_pos_neq in D.
    replace (i + 1)%nat with (S i) in * by lia. cbn [pq] in E1. cbv zeta in E1. cbn [fst snd] in E1.
    rewrite E0, E1. field. auto.
Qed.
End Thomas.

Section Exists.
Variables (xs ys : list R).
Notation N := (length xs).
Notation x := (rget xs).
Notation y := (rget ys).
Hypothesis N4 : (4 <= N)%nat.
Hypothesis inc : forall i, (i + 1 < N)%nat -> x i < x (i + 1)%nat.
Notation h := (hh xs).

Lemma h_pos i : (i + 1 < N)%nat -> 0 < h i.
Proof. intros H. unfold hh. pose proof (inc i H). lra. Qed.

Definition aa (j : nat) : R := if Nat.eqb j 0 then 0 else if Nat.eqb j (N - 3) then h (N - 3) - h (N - 2) * (h (N - 2) / h (N - 3)) else h j.
Definition bb (j : nat) : R := 2 * (h j + h (j + 1))
  + (if Nat.eqb j 0 then h 0 + h 0 * (h 0 / h 1) else 0)
  + (if Nat.eqb j (N - 3) then h (N - 2) + h (N - 2) * (h (N - 2) / h (N - 3)) else 0).
Definition cc (j : nat) : R := if Nat.eqb j (N - 3) then 0 else if Nat.eqb j 0 then h 1 - h 0 * (h 0 / h 1) else h (j + 1).
Definition dd (j : nat) : R := 6 * ((y (j + 2)%nat - y (j + 1)%nat) / h (j + 1) - (y (j + 1)%nat - y j) / h j).

Lemma dominant j : (j <= N - 3)%nat -> Rabs (aa j) + Rabs (cc j) < Rabs (bb j).
Proof.
  intros Hj. unfold aa, bb, cc.
  assert (Q : forall u v, 0 < u -> 0 < v -> 0 < u * (u / v)).
  { intros. apply Rmult_lt_0_compat; auto. apply Rdiv_lt_0_compat; auto. }
  assert (AB : forall u v, 0 < u -> 0 < v -> Rabs (v - u) <= v + u).
  { intros. unfold Rabs. destruct (Rcase_abs _); lra. }
  pose proof (h_pos j ltac:(lia)) as P0. pose proof (h_pos (j + 1) ltac:(lia)) as P1.
  destruct (Nat.eqb_spec j 0).
  - destruct (Nat.eqb_spec j (N - 3)); [lia|]. subst j. simpl in P1 |- *.
    pose proof (Q _ _ P0 P1) as QQ. pose proof (AB _ _ QQ P1). rewrite Rabs_R0.
    rewrite (Rabs_pos_eq (_ + _)) by lra. lra.
  - destruct (Nat.eqb_spec j (N - 3)).
    + subst j. replace (N - 3 + 1)%nat with (N - 2)%nat in * by lia.
      pose proof (Q _ _ P1 P0) as QQ. pose proof (AB _ _ QQ P0). rewrite Rabs_R0.
      rewrite (Rabs_pos_eq (_ + _)) by lra. lra.
    + rewrite (Rabs_pos_eq (h j)), (Rabs_pos_eq (h (j + 1))) by lra. rewrite Rabs_pos_eq by lra. lra.
Qed.

(** the second derivatives at the nodes *)
Definition moments (i : nat) : R :=
  let u := sol (N - 3) aa bb cc dd in
  if Nat.eqb i 0 then u 0%nat + (u 0%nat - u 1%nat) * (h 0 / h 1)
  else if Nat.eqb i (N - 1) then u (N - 3)%nat + (u (N - 3)%nat - u (N - 4)%nat) * (h (N - 2) / h (N - 3))
  else u (i - 1)%nat.

Lemma moments_ok : let M := moments in
  (forall i, (i + 2 < N)%nat -> h i * M i + 2 * (h i + h (i + 1)) * M (i + 1)%nat + h (i + 1) * M (i + 2)%nat = dd i) /\
  (M 1%nat - M 0%nat) * h 1 = (M 2%nat - M 1%nat) * h 0 /\
  (M (N - 2)%nat - M (N - 3)%nat) * h (N - 2) = (M (N - 1)%nat - M (N - 2)%nat) * h (N - 3).
Proof.
  intros M. pose proof (thomas (N - 3) aa bb cc dd dominant) as (T0 & T1 & T2).
  set (u := sol (N - 3) aa bb cc dd) in *.
  pose proof (h_pos 0 ltac:(lia)) as P0. pose proof (h_pos 1 ltac:(lia)) as P1.
  pose proof (h_pos (N - 3) ltac:(lia)) as P2. pose proof (h_pos (N - 2) ltac:(lia)) as P3.
  assert (MM : forall i, (1 <= i <= N - 2)%nat -> M i = u (i - 1)%nat).
  { intros i Hi. unfold M, moments. cbv zeta. destruct (Nat.eqb_spec i 0); [lia|]. destruct (Nat.eqb_spec i (N - 1)); [lia|]. auto. }
  assert (M0 : M 0%nat = u 0%nat + (u 0%nat - u 1%nat) * (h 0 / h 1)) by reflexivity.
  assert (ML : M (N - 1)%nat = u (N - 3)%nat + (u (N - 3)%nat - u (N - 4)%nat) * (h (N - 2) / h (N - 3))).
  { unfold M, moments. cbv zeta. destruct (Nat.eqb_spec (N - 1) 0); [lia|]. destruct (Nat.eqb_spec (N - 1) (N - 1)); [auto|lia]. }
  split; [|split].
  - intros i Hi. destruct (Nat.eq_dec i 0) as [->|I0].
    + simpl. rewrite M0, !MM by lia. simpl. rewrite <- T1. unfold bb, cc.
      destruct (Nat.eqb_spec 0 (N - 3)); [lia|]. rewrite Nat.eqb_refl. simpl. ring.
    + destruct (Nat.eq_dec i (N - 3)) as [->|I1].
      * replace (N - 3 + 1)%nat with (N - 2)%nat by lia. replace (N - 3 + 2)%nat with (N - 1)%nat by lia.
        rewrite ML, !MM by lia. replace (N - 3 - 1)%nat with (N - 4)%nat by lia. replace (N - 2 - 1)%nat with (N - 3)%nat by lia.
        specialize (T2 (N - 4)%nat ltac:(lia)). replace (N - 4 + 1)%nat with (N - 3)%nat in T2 by lia.
        rewrite <- T2. unfold aa, bb, cc. destruct (Nat.eqb_spec (N - 3) 0); [lia|].
        destruct (Nat.eqb_spec (N - 3) (N - 3)); [|lia]. replace (N - 3 + 1)%nat with (N - 2)%nat by lia. ring.
      * rewrite !MM by lia. specialize (T2 (i - 1)%nat ltac:(lia)).
        replace (i - 1 + 1)%nat with i in T2 by lia. replace (i - 1 + 2)%nat with (i + 1)%nat in T2 by lia.
        replace (i + 1 - 1)%nat with i by lia. replace (i + 2 - 1)%nat with (i + 1)%nat by lia.
        rewrite <- T2. unfold aa, bb, cc. destruct (Nat.eqb_spec i 0); [lia|]. destruct (Nat.eqb_spec i (N - 3)); [lia|]. ring.
  - rewrite M0, !MM by lia. simpl. field. lra.
  - rewrite ML, !MM by lia. replace (N - 3 - 1)%nat with (N - 4)%nat by lia. replace (N - 2 - 1)%nat with (N - 3)%nat by lia.
    field. lra.
Qed.

Variable M : nat -> R.
Definition piece (i : nat) (t : R) : R :=
  y i + ((y (i + 1)%nat - y i) / h i - h i * (2 * M i + M (i + 1)%nat) / 6) * (t - x i)
      + M i / 2 * (t - x i) ^ 2 + (M (i + 1)%nat - M i) / (6 * h i) * (t - x i) ^ 3.
Fixpoint pick (t : R) (k : nat) : nat :=
  match k with 0%nat => 0%nat | S j => if Rle_dec (x k) t then k else pick t j end.
Definition spl (t : R) : R := piece (pick t (N - 2)) t.

Lemma piece_left i : piece i (x i) = y i.
Proof. unfold piece. replace (x i - x i) with 0 by ring. ring. Qed.

Lemma piece_right i : (i + 1 < N)%nat -> piece i (x (i + 1)%nat) = y (i + 1)%nat.
Proof.
  intros H. unfold piece. change (x (i + 1)%nat - x i) with (h i). pose proof (h_pos i H). field. lra.
Qed.

Lemma x_mono i j : (i <= j)%nat -> (j < N)%nat -> x i <= x j.
Proof.
  intros Hij. induction Hij; intros Hj; [lra|]. specialize (IHHij ltac:(lia)).
  pose proof (inc m ltac:(lia)). replace (m + 1)%nat with (S m) in H by lia. lra.
Qed.

Lemma pick_spec t k : x 0%nat <= t -> (k <= N - 2)%nat ->
  (pick t k <= k)%nat /\ x (pick t k) <= t /\ forall j, (pick t k < j <= k)%nat -> t < x j.
Proof.
  intros H0. induction k; intros Hk; cbn [pick].
  - repeat split; auto. intros; lia.
  - destruct (Rle_dec (x (S k)) t).
    + repeat split; auto. intros; lia.
    + destruct (IHk ltac:(lia)) as (A & B & C). repeat split; auto.
      intros j Hj. destruct (Nat.eq_dec j (S k)); [subst; lra|apply C; lia].
Qed.

Lemma spl_piece i t : (i + 1 < N)%nat -> x i <= t <= x (i + 1)%nat -> spl t = piece i t.
Proof.
  intros Hi Ht. unfold spl.
  assert (H0 : x 0%nat <= t) by (pose proof (x_mono 0 i ltac:(lia) ltac:(lia)); lra).
  destruct (pick_spec t (N - 2) H0 ltac:(lia)) as (A & B & C).
  set (k := pick t (N - 2)) in *.
  assert (i <= k)%nat.
  { destruct (le_lt_dec i k); auto. specialize (C i ltac:(lia)). lra. }
  destruct (Nat.eq_dec k i) as [->|NE]; auto.
  assert (x (i + 1)%nat <= x k) by (apply x_mono; lia).
  assert (Et : t = x (i + 1)%nat) by lra.
  assert (Ek : k = (i + 1)%nat).
  { destruct (Nat.eq_dec k (i + 1)); auto. exfalso.
    pose proof (inc (i + 1) ltac:(lia)). pose proof (x_mono (i + 1 + 1) k ltac:(lia) ltac:(lia)). lra. }
  rewrite Ek, Et, piece_left, piece_right; auto.
Qed.

Lemma spl_node i : (i < N)%nat -> spl (x i) = y i.
Proof.
  intros Hi. destruct (Nat.eq_dec i (N - 1)).
  - subst. replace (N - 1)%nat with (N - 2 + 1)%nat by lia.
    rewrite (spl_piece (N - 2)); [apply piece_right; lia|lia|split; [left; apply inc; lia|lra]].
  - rewrite (spl_piece i); [apply piece_left|lia|split; [lra|left; apply inc; lia]].
Qed.
End Exists.

(** The not-a-knot spline through any four or more points with increasing abscissae. *)
Definition spline (xs ys : list R) : R -> R := spl xs ys (moments xs ys).

Theorem spline_is_notaknot : forall (xs ys : list R),
  (4 <= length xs)%nat -> (forall i, (i + 1 < length xs)%nat -> rget xs i < rget xs (i + 1)) ->
  notaknot_spline xs ys (spline xs ys).
Proof.
  intros xs ys N4 inc. destruct (moments_ok xs ys N4 inc) as (Row & K0 & K1).
  unfold spline. set (M := moments xs ys) in *. unfold dd in Row.
  exists (fun i => (rget ys (i + 1) - rget ys i) / hh xs i - hh xs i * (2 * M i + M (i + 1)%nat) / 6),
         (fun i => M i / 2), (fun i => (M (i + 1)%nat - M i) / (6 * hh xs i)).
  cbv zeta. pose proof (h_pos xs inc) as HP. split; [|split; [|split; [|split]]].
  - intros i t Hi Ht. rewrite (spl_piece xs ys N4 inc M i t Hi Ht). reflexivity.
  - intros i Hi. apply spl_node; auto.
  - intros i Hi. change (rget xs (i + 1) - rget xs i) with (hh xs i).
    pose proof (HP i ltac:(lia)). pose proof (HP (i + 1)%nat ltac:(lia)). specialize (Row i Hi).
    replace (i + 1 + 1)%nat with (i + 2)%nat by lia. split.
    + set (d1 := (rget ys (i + 2) - rget ys (i + 1)) / hh xs (i + 1)) in *.
      set (d0 := (rget ys (i + 1) - rget ys i) / hh xs i) in *.
      assert (E3 : 3 * ((M (i + 1)%nat - M i) / (6 * hh xs i)) * hh xs i ^ 2 = (M (i + 1)%nat - M i) * hh xs i / 2) by (field; lra).
      rewrite E3. lra.
    + field. lra.
  - pose proof (HP 0%nat ltac:(lia)). pose proof (HP 1%nat ltac:(lia)). simpl.
    apply Rmult_eq_reg_r with (6 * hh xs 0 * hh xs 1); [|nra]. field_simplify; lra.
  - set (N := length xs) in *. pose proof (HP (N - 3)%nat ltac:(lia)). pose proof (HP (N - 2)%nat ltac:(lia)).
    replace (N - 3 + 1)%nat with (N - 2)%nat by lia. replace (N - 2 + 1)%nat with (N - 1)%nat by lia.
    apply Rmult_eq_reg_r with (6 * hh xs (N - 3) * hh xs (N - 2)); [|nra]. field_simplify; lra.
Qed.
