(** * Checking positivity of a not-a-knot spline by rational arithmetic *)
From Coq Require Import List ZArith QArith Qreals Qabs Reals Lra Lia Bool.
From Verif Require Import Base RealSpec Spline_spec Spline_proofs.
Import ListNotations.
Local Open Scope R_scope.

Definition qget (l : list Q) (i : nat) : Q := get 0%Q l i.
Definition Qltb (a b : Q) : bool := negb (Qle_bool b a).

Section Check.
Variables (xs ys ms : list Q) (rho : Q).
Local Open Scope Q_scope.
Let n := List.length xs.
Definition hq (i : nat) : Q := qget xs (i + 1) - qget xs i.
Definition resid (i : nat) : Q :=
  hq i * qget ms i + 2 * (hq i + hq (i + 1)) * qget ms (i + 1) + hq (i + 1) * qget ms (i + 2)
  - 6 * ((qget ys (i + 2) - qget ys (i + 1)) / hq (i + 1) - (qget ys (i + 1) - qget ys i) / hq i).
Definition check : bool :=
  (4 <=? n)%nat
  && forallb (fun i => Qltb 0 (hq i)) (seq 0 (n - 1))
  && forallb (fun i => Qle_bool 1 (hq i + hq (i + 1))) (seq 0 (n - 2))
  && Qle_bool (hq 0) (hq 1)
  && Qle_bool (hq (n - 2)) (hq (n - 3))
  && Qeq_bool ((qget ms 1 - qget ms 0) * hq 1) ((qget ms 2 - qget ms 1) * hq 0)
  && Qeq_bool ((qget ms (n - 2) - qget ms (n - 3)) * hq (n - 2)) ((qget ms (n - 1) - qget ms (n - 2)) * hq (n - 3))
  && forallb (fun i => Qle_bool (resid i) rho && Qle_bool (- rho) (resid i)) (seq 0 (n - 2))
  && forallb (fun i => Qltb 0 (qget ys i)) (seq 0 n)
  && forallb (fun i => Qltb (9 * hq i * hq i * rho) (6 * (2 * qget ys i + qget ys (i + 1)) - hq i * hq i * (2 * qget ms i + qget ms (i + 1)))
                    && Qltb (9 * hq i * hq i * rho) (6 * (qget ys i + 2 * qget ys (i + 1)) - hq i * hq i * (qget ms i + 2 * qget ms (i + 1))))
       (seq 0 (n - 1)).
End Check.

Lemma Qltb_true a b : Qltb a b = true -> Q2R a < Q2R b.
Proof.
  unfold Qltb. intros H. apply negb_true_iff in H. apply Qlt_Rlt. apply Qnot_le_lt. intros C.
  apply Qle_bool_iff in C. congruence.
Qed.
Lemma Qleb_true a b : Qle_bool a b = true -> Q2R a <= Q2R b.
Proof. intros H. apply Qle_Rle. apply Qle_bool_iff; auto. Qed.

Lemma rget_Q l i : rget (map Q2R l) i = Q2R (qget l i).
Proof.
  unfold rget, qget, get. rewrite <- (map_nth Q2R). f_equal. unfold Q2R. simpl. lra.
Qed.

Lemma forallb_seq (f : nat -> bool) n i : forallb f (seq 0 n) = true -> (i < n)%nat -> f i = true.
Proof. intros H Hi. rewrite forallb_forall in H. apply H. apply in_seq. lia. Qed.

Ltac q2r := repeat (rewrite ?Q2R_plus, ?Q2R_minus, ?Q2R_mult, ?Q2R_opp in * ).

Theorem check_sound xs ys ms rho s : check xs ys ms rho = true ->
  notaknot_spline (map Q2R xs) (map Q2R ys) s ->
  forall t, Q2R (qget xs 0) <= t <= Q2R (qget xs (List.length xs - 1)) -> 0 < s t.
Proof.
  intros C Hs t Ht. unfold check in C. cbv zeta in C.
  set (n := List.length xs) in *.
  repeat match type of C with (_ && _ = true) => apply andb_prop in C; let C2 := fresh "K" in destruct C as [C C2] end.
  apply Nat.leb_le in C.
  assert (LN : List.length (map Q2R xs) = n) by apply map_length.
  assert (HH : forall i, hh (map Q2R xs) i = Q2R (hq xs i)).
  { intros i. unfold hh, hq. rewrite !rget_Q, Q2R_minus. reflexivity. }
  assert (HP : forall i, (i + 1 < n)%nat -> 0 < Q2R (hq xs i)).
  { intros i Hi. pose proof (forallb_seq _ _ i K7 ltac:(lia)) as H. apply Qltb_true in H. unfold Q2R at 1 in H. simpl in H. lra. }
  assert (c0 : Q2R 0 = 0) by (unfold Q2R; simpl; lra).
  assert (c1 : Q2R 1 = 1) by (unfold Q2R; simpl; lra).
  assert (c2 : Q2R 2 = 2) by (unfold Q2R; simpl; lra).
  assert (c6 : Q2R 6 = 6) by (unfold Q2R; simpl; lra).
  assert (c9 : Q2R 9 = 9) by (unfold Q2R; simpl; lra).
  apply (spline_positive (map Q2R xs) (map Q2R ys) s) with (m := fun i => Q2R (qget ms i)) (rho := Q2R rho);
    rewrite ?LN; rewrite ?HH; auto.
  - intros i Hi. rewrite !rget_Q. specialize (HP i Hi). unfold hq in HP. rewrite Q2R_minus in HP. lra.
  - intros i Hi. rewrite !HH. pose proof (forallb_seq _ _ i K6 ltac:(lia)) as H. apply Qleb_true in H.
    rewrite Q2R_plus in H. lra.
  - apply Qleb_true; auto.
  - apply Qleb_true; auto.
  - apply Qeq_bool_eq in K3. apply Qeq_eqR in K3. rewrite !Q2R_mult, !Q2R_minus in K3. exact K3.
  - apply Qeq_bool_eq in K2. apply Qeq_eqR in K2. rewrite !Q2R_mult, !Q2R_minus in K2. exact K2.
  - intros i Hi. pose proof (forallb_seq _ _ i K1 ltac:(lia)) as H. apply andb_prop in H as [H1 H2].
    apply Qleb_true in H1, H2. rewrite Q2R_opp in H2. rewrite !HH, !rget_Q.
    pose proof (HP i ltac:(lia)) as P0. pose proof (HP (i + 1)%nat ltac:(lia)) as P1.
    assert (N0 : forall q, 0 < Q2R q -> ~ (q == 0)%Q) by (intros q Hq E; apply Qeq_eqR in E; lra).
    unfold resid in H1, H2. rewrite Q2R_minus, !Q2R_plus, !Q2R_mult, Q2R_plus, Q2R_minus, !Q2R_div, !Q2R_minus, c2, c6 in H1, H2 by auto.
    apply Rabs_le. split; lra.
  - intros i Hi. rewrite rget_Q. pose proof (forallb_seq _ _ i K0 Hi) as H. apply Qltb_true in H. lra.
  - intros i Hi. rewrite !HH, !rget_Q. pose proof (forallb_seq _ _ i K ltac:(lia)) as H. apply andb_prop in H as [H1 H2].
    apply Qltb_true in H1, H2.
    rewrite !Q2R_minus, !Q2R_mult, !Q2R_plus, !Q2R_mult, c2, c6, c9 in H1, H2. simpl pow. lra.
  - rewrite !rget_Q. exact Ht.
Qed.
