(** * The splines through the ITU tables are positive *)
From Coq Require Import List ZArith QArith Qreals Reals Lra Lia Bool.
From Verif Require Import Base Num RealSpec Itu_table KR_spec Spline_spec Spline_proofs Spline_exists Spline_data Spline_cert.
Import ListNotations.
Local Open Scope R_scope.

Definition decQ (p : Z * nat) : Q := (fst p # Z.to_pos (10 ^ Z.of_nat (snd p))).

Lemma decQ_dec p : Q2R (decQ p) = dec p.
Proof.
  unfold decQ, dec, Q2R. simpl. rewrite Z2Pos.id by (apply Z.pow_pos_nonneg; lia). reflexivity.
Qed.
Lemma map_dec l : map Q2R (map decQ l) = map dec l.
Proof. rewrite map_map. apply map_ext. intros; apply decQ_dec. Qed.

Definition rho0 : Q := (1 # 100000000)%Q.

Definition certs : list (list (Z * nat) * list (Z * nat) * list Q) :=
  [ (ITU_table_2005_freq, ITU_table_2005_k_H, cert_2005_k_H);
    (ITU_table_2005_freq, ITU_table_2005_k_V, cert_2005_k_V);
    (ITU_table_2005_freq, ITU_table_2005_alpha_H, cert_2005_alpha_H);
    (ITU_table_2005_freq, ITU_table_2005_alpha_V, cert_2005_alpha_V);
    (ITU_table_2003_freq, ITU_table_2003_k_H, cert_2003_k_H);
    (ITU_table_2003_freq, ITU_table_2003_k_V, cert_2003_k_V);
    (ITU_table_2003_freq, ITU_table_2003_alpha_H, cert_2003_alpha_H);
    (ITU_table_2003_freq, ITU_table_2003_alpha_V, cert_2003_alpha_V) ].

Lemma certs_ok : forallb (fun c => check (map decQ (fst (fst c))) (map decQ (snd (fst c))) (snd c) rho0
   && Qeq_bool (qget (map decQ (fst (fst c))) 0) 1
   && Qeq_bool (qget (map decQ (fst (fst c))) (List.length (map decQ (fst (fst c))) - 1)) 100) certs = true.
Proof. vm_compute. reflexivity. Qed.

Lemma cert_pos c s : In c certs -> notaknot_spline (map dec (fst (fst c))) (map dec (snd (fst c))) s ->
  forall f, 1 <= f <= 100 -> 0 < s f.
Proof.
  intros Hc Hs f Hf. pose proof certs_ok as K. rewrite forallb_forall in K. specialize (K c Hc).
  apply andb_prop in K as [K K2]. apply andb_prop in K as [K K1].
  rewrite <- !map_dec in Hs. apply (check_sound _ _ _ _ s K Hs f).
  apply Qeq_bool_eq in K1, K2. apply Qeq_eqR in K1, K2. rewrite K1, K2. unfold Q2R. simpl. lra.
Qed.

Definition itu_table (t : list (list (Z * nat))) : Prop := t = ITU_table_2003 \/ t = ITU_table_2005.

Theorem itu_spline_positive t k s : itu_table t -> (1 <= k <= 4)%nat ->
  notaknot_spline (map dec (get [] t 0)) (map dec (get [] t k)) s ->
  forall f, 1 <= f <= 100 -> 0 < s f.
Proof.
  intros Ht Hk Hs.
  destruct Ht as [->| ->];
  (assert (k = 1 \/ k = 2 \/ k = 3 \/ k = 4)%nat as [->|[->|[->| ->]]] by lia);
  match type of Hs with notaknot_spline (map dec ?a) (map dec ?b) _ =>
    let a' := eval cbv [get nth ITU_table_2003 ITU_table_2005] in a in
    let b' := eval cbv [get nth ITU_table_2003 ITU_table_2005] in b in
    change a with a' in Hs; change b with b' in Hs end.
  - apply (cert_pos (nth 4 certs ([], [], []))); [simpl; auto 10|exact Hs].
  - apply (cert_pos (nth 5 certs ([], [], []))); [simpl; auto 10|exact Hs].
  - apply (cert_pos (nth 6 certs ([], [], []))); [simpl; auto 10|exact Hs].
  - apply (cert_pos (nth 7 certs ([], [], []))); [simpl; auto 10|exact Hs].
  - apply (cert_pos (nth 0 certs ([], [], []))); [simpl; auto 10|exact Hs].
  - apply (cert_pos (nth 1 certs ([], [], []))); [simpl; auto 10|exact Hs].
  - apply (cert_pos (nth 2 certs ([], [], []))); [simpl; auto 10|exact Hs].
  - apply (cert_pos (nth 3 certs ([], [], []))); [simpl; auto 10|exact Hs].
Qed.

Lemma itu_nodes t : itu_table t -> (4 <= List.length (get [] t 0))%nat /\
  (forall i, (i + 1 < List.length (get [] t 0))%nat -> rget (map dec (get [] t 0)) i < rget (map dec (get [] t 0)) (i + 1)) /\
  (forall k, (1 <= k <= 4)%nat -> List.length (get [] t k) = List.length (get [] t 0)) /\
  rget (map dec (get [] t 0)) 0 = 1 /\ rget (map dec (get [] t 0)) (List.length (get [] t 0) - 1) = 100.
Proof.
  intros Ht. split; [destruct Ht as [->| ->]; vm_compute; lia|].
  assert (L : forall k, (1 <= k <= 4)%nat -> List.length (get [] t k) = List.length (get [] t 0)).
  { intros k Hk. assert (k = 1 \/ k = 2 \/ k = 3 \/ k = 4)%nat as [->|[->|[->| ->]]] by lia; destruct Ht as [->| ->]; reflexivity. }
  assert (B : forallb (fun i => Qltb (qget (map decQ (get [] t 0)) i) (qget (map decQ (get [] t 0)) (i + 1))) (seq 0 (List.length (get [] t 0) - 1)) = true)
    by (destruct Ht as [->| ->]; vm_compute; reflexivity).
  assert (E : Qeq_bool (qget (map decQ (get [] t 0)) 0) 1
     && Qeq_bool (qget (map decQ (get [] t 0)) (List.length (get [] t 0) - 1)) 100 = true)
    by (destruct Ht as [->| ->]; vm_compute; reflexivity).
  rewrite <- map_dec. split; [|split; [exact L|]].
  - intros i Hi. rewrite !rget_Q. apply Qltb_true. apply (forallb_seq _ _ i B). lia.
  - apply andb_prop in E as [E1 E2]. apply Qeq_bool_eq in E1, E2. apply Qeq_eqR in E1, E2.
    rewrite !rget_Q, E1, E2. unfold Q2R; simpl; lra.
Qed.
