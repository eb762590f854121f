(** Proofs about the ITU coefficients in exact arithmetic. *)
From Coq Require Import List ZArith Bool String Reals Lra Lia.
From Flocq Require Import Core.Raux.
From Verif Require Import Base Num NumF64 NumList NpOps Libm RealSpec Itu_table KR_model KR_spec KR_proofs
  Spline_spec Spline_proofs Spline_exists Spline_itu.
Import ListNotations.
Local Notation length := List.length.
Local Open Scope nat_scope.

Definition toR (x : XR) : R := match (x : xr) with XFin r => r | _ => 0%R end.
Lemma map_toR l : map toR (ofR l) = l.
Proof. unfold ofR. rewrite map_map. rewrite map_ext with (g := fun x => x); [apply map_id|auto]. Qed.

(** the exact interpolator *)
Definition exact_spline (xs ys : list XR) (x : XR) : XR :=
  match (x : xr) with XFin t => XFin (spline (map toR xs) (map toR ys) t) | _ => XNaN end.

Lemma exact_spline_ok : exact_cubic exact_spline.
Proof.
  intros xs ys N4 _ Inc. exists (spline xs ys). split; [apply spline_is_notaknot; auto|].
  intros t _. unfold exact_spline. rewrite !map_toR. reflexivity.
Qed.

Lemma row_XR t k : row (O := XR) t k = ofR (map dec (get [] t k)).
Proof.
  unfold row, ofR. rewrite map_map. apply map_ext. intros [m e]. simpl fst. simpl snd.
  change (n_lit (O := XR) m e) with (xdiv (XFin (IZR m)) (XFin (IZR (10 ^ Z.of_nat e)))).
  rewrite xdiv_fin; [reflexivity|]. apply not_0_IZR. apply Z.pow_nonzero; lia.
Qed.

Lemma known_itu ap t : known_table ap = Some t -> itu_table t.
Proof.
  unfold known_table, itu_table. destruct (String.eqb ap _); [intros E; injection E; auto|].
  destruct (String.eqb ap _); [intros E; injection E; auto|discriminate].
Qed.

Lemma in_range_XR f : (1 <= f <= 100)%R -> in_range (XFin f : XR).
Proof.
  intros H. split.
  - change (xltb (XFin f) (XFin 1) = false). simpl. apply Rlt_bool_false. lra.
  - change (xltb (XFin 100) (XFin f) = false). simpl. apply Rlt_bool_false. lra.
Qed.

Lemma a_b_exact (cubic : list XR -> list XR -> XR -> XR) : exact_cubic cubic ->
  forall (f : list R) pol ap t,
  length f = length (pols (ofR f) pol) -> f <> [] ->
  (forall x, In x f -> (1 <= x <= 100)%R) ->
  (forall s, In s (pols (ofR f) pol) -> horizontal s \/ vertical s) ->
  known_table ap = Some t ->
  exists a b : list R, a_b cubic (ofR f) pol ap = Ok (ofR a, ofR b) /\
    length a = length f /\ length b = length f /\
    forall i, i < length f ->
      (0 < rget a i)%R /\ (0 < rget b i)%R /\
      (forall j, j < length (get [] t 0) -> rget f i = entry t 0 j ->
         (horizontal (get ""%string (pols (ofR f) pol) i) ->
            rget a i = entry t 1 j /\ rget b i = entry t 3 j) /\
         (vertical (get ""%string (pols (ofR f) pol) i) ->
            rget a i = entry t 2 j /\ rget b i = entry t 4 j)).
Proof.
  intros Hc f pol ap t EL NE HR HP HT.
  assert (Lf : length (ofR f) = length f) by apply ofR_length.
  destruct (a_b_accept XRsem cubic (ofR f) pol ap t) as (a & b & E & La & Lb & G); auto.
  { congruence. } { intros C. apply NE. destruct f; [auto|discriminate]. }
  { intros x Hx. unfold ofR in Hx. apply in_map_iff in Hx as (r & <- & Hr). apply in_range_XR. auto. }
  pose proof (known_itu ap t HT) as IT. destruct (itu_nodes t IT) as (N4 & Inc & LL & E1 & E100).
  assert (LD : forall k, length (map dec (get [] t k)) = length (get [] t k)) by (intros; apply map_length).
  assert (SP : forall k, 1 <= k <= 4 -> exists s, notaknot_spline (map dec (get [] t 0)) (map dec (get [] t k)) s /\
     forall x, (1 <= x <= 100)%R -> cubic (row t 0) (row t k) (XFin x : XR) = XFin (s x)).
  { intros k Hk. destruct (Hc (map dec (get [] t 0)) (map dec (get [] t k))) as (s & Hs & Es); rewrite ?LD; auto.
    exists s. split; auto. intros x Hx. rewrite !row_XR. apply Es. rewrite LD, E1, E100. auto. }
  assert (SN : forall k s j, 1 <= k <= 4 -> notaknot_spline (map dec (get [] t 0)) (map dec (get [] t k)) s ->
     j < length (get [] t 0) -> s (entry t 0 j) = entry t k j).
  { intros k s j Hk (c1 & c2 & c3 & _ & Hn & _) Hj. rewrite LD in Hn. specialize (Hn j Hj).
    unfold rget in Hn. rewrite !get_map with (d := (0%Z, 0)) in Hn by (rewrite ?LL by auto; auto). exact Hn. }
  destruct (SP 1 ltac:(lia)) as (s1 & N1 & G1). destruct (SP 2 ltac:(lia)) as (s2 & N2 & G2).
  destruct (SP 3 ltac:(lia)) as (s3 & N3 & G3). destruct (SP 4 ltac:(lia)) as (s4 & N4' & G4).
  exists (map toR a), (map toR b).
  assert (RG : forall i, i < length f -> (1 <= rget f i <= 100)%R).
  { intros i Hi. apply HR. unfold rget. apply get_In. auto. }
  assert (AV : forall i, i < length f ->
    (horizontal (get ""%string (pols (ofR f) pol) i) ->
       get n_nan a i = (XFin (s1 (rget f i)) : XR) /\ get n_nan b i = (XFin (s3 (rget f i)) : XR)) /\
    (vertical (get ""%string (pols (ofR f) pol) i) ->
       get n_nan a i = (XFin (s2 (rget f i)) : XR) /\ get n_nan b i = (XFin (s4 (rget f i)) : XR))).
  { intros i Hi. destruct (G i ltac:(lia)) as [GH GV].
    rewrite (ofR_get n_nan f i Hi) in GH, GV. specialize (RG i Hi).
    split; intros H; [specialize (GH H); rewrite G1, G3 in GH by auto; exact GH
                     |specialize (GV H); rewrite G2, G4 in GV by auto; exact GV]. }
  assert (HVi : forall i, i < length f -> horizontal (get ""%string (pols (ofR f) pol) i) \/ vertical (get ""%string (pols (ofR f) pol) i)).
  { intros i Hi. apply HP. apply get_In. congruence. }
  assert (FIN : forall l : list XR, length l = length f ->
     (forall i, i < length f -> exists r, get n_nan l i = (XFin r : XR)) -> l = ofR (map toR l)).
  { intros l El Hl. apply get_ext with (d := (n_nan : XR)); [rewrite ofR_length, map_length; auto|].
    intros i Hi. rewrite ofR_get by (rewrite map_length; auto). unfold rget. rewrite get_map with (d := (n_nan : XR)) by auto.
    destruct (Hl i ltac:(lia)) as (r & ->). reflexivity. }
  assert (FA : a = ofR (map toR a)).
  { apply FIN; [lia|]. intros i Hi. destruct (AV i Hi) as [AH AV']. destruct (HVi i Hi) as [Q|Q]; [apply AH in Q|apply AV' in Q]; destruct Q; eauto. }
  assert (FB : b = ofR (map toR b)).
  { apply FIN; [lia|]. intros i Hi. destruct (AV i Hi) as [AH AV']. destruct (HVi i Hi) as [Q|Q]; [apply AH in Q|apply AV' in Q]; destruct Q; eauto. }
  rewrite <- FA, <- FB. split; [exact E|]. rewrite !map_length. split; [lia|]. split; [lia|].
  intros i Hi. destruct (AV i Hi) as [AH AV'].
  assert (RA : rget (map toR a) i = toR (get n_nan a i)) by (unfold rget; rewrite get_map with (d := (n_nan : XR)) by lia; auto).
  assert (RB : rget (map toR b) i = toR (get n_nan b i)) by (unfold rget; rewrite get_map with (d := (n_nan : XR)) by lia; auto).
  rewrite RA, RB.
  assert (POS : (0 < toR (get n_nan a i))%R /\ (0 < toR (get n_nan b i))%R).
  { destruct (HVi i Hi) as [Q|Q]; [destruct (AH Q) as [-> ->]|destruct (AV' Q) as [-> ->]]; simpl; split.
    - eapply (itu_spline_positive t 1); eauto; lia.
    - eapply (itu_spline_positive t 3); eauto; lia.
    - eapply (itu_spline_positive t 2); eauto; lia.
    - eapply (itu_spline_positive t 4); eauto; lia. }
  split; [apply POS|]. split; [apply POS|]. intros j Hj Ef.
  split; intros Q; [destruct (AH Q) as [-> ->]|destruct (AV' Q) as [-> ->]]; simpl; rewrite Ef; split; apply SN; auto; lia.
Qed.

(** a single accepted frequency never gives NaN or an error *)
Lemma calc_freq_exact cubic : exact_cubic cubic ->
  forall (A : list XR) l f pol ap (R_min : XR), (0 < l)%R -> (1 <= f <= 100)%R ->
  horizontal pol \/ vertical pol -> known_table ap <> None ->
  exists R, calc_R_from_A XRm cubic A (XFin l : XR) (Some [XFin f : XR]) (Some (PolStr pol)) None None ap R_min = Ok R /\
    length R = length A /\
    forall i, i < length A ->
      (missing (get n_nan R i) <-> missing (get n_nan A i)) /\
      (~ missing (get n_nan A i) -> nonneg (get n_nan R i)).
Proof.
  intros Hc A l f pol ap R_min Hl Hf Hp Ht. destruct (known_table ap) as [t|] eqn:HT; [|congruence].
  destruct (a_b_exact cubic Hc [f] (PolArr [pol]) ap t) as (a & b & E & La & Lb & G); auto.
  { congruence. } { intros x [<-|[]]; auto. } { intros s [<-|[]]; auto. }
  destruct (G 0 ltac:(simpl; lia)) as (Pa & Pb & _).
  destruct a as [|a0 [|a1 a]]; try discriminate. destruct b as [|b0 [|b1 b]]; try discriminate.
  unfold rget, get in Pa, Pb. simpl in Pa, Pb.
  rewrite (calc_single_freq XRsem XRm cubic A (XFin l : XR) (XFin f : XR) pol ap (XFin a0 : XR) (XFin b0 : XR) R_min);
    [|apply pos_XR; auto|exact E].
  assert (PM : positive (n_mul (XFin a0 : XR) (XFin l : XR))).
  { change (positive (XFin (a0 * l) : XR)). apply pos_XR. apply Rmult_lt_0_compat; auto. }
  destruct (calc_nan XRsem XRm cubic XRm_pow_sane A (XFin l : XR) (XFin a0 : XR) (XFin b0 : XR) R_min ap) as (R & ER & LR & GR); auto.
  { apply pos_XR; auto. } { split; reflexivity. }
  exists R. split; [exact ER|]. split; [exact LR|]. intros i Hi. destruct (GR i Hi) as (X1 & X2 & _). auto.
Qed.
