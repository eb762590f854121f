(** Proofs: bounds and order of the ITU coefficients over the whole band, and what they mean for the rain rate. *)
From Coq Require Import List ZArith Bool String Reals Lra Lia.
From Flocq Require Import Core.Raux.
From Verif Require Import Base Num NumF64 NumList NpOps Libm RealSpec Itu_table KR_model KR_spec KR_proofs
  Spline_spec Spline_proofs Spline_exists Spline_itu KR_proofs3 Spline_mono.
Import ListNotations.
Local Notation length := List.length.
Local Open Scope nat_scope.

(** the four splines a call of [a_b] evaluates *)
Lemma a_b_splines (cubic : list XR -> list XR -> XR -> XR) : exact_cubic cubic ->
  forall ap t, known_table ap = Some t ->
  exists s : nat -> R -> R,
    (forall k, 1 <= k <= 4 -> notaknot_spline (map dec (get [] t 0)) (map dec (get [] t k)) (s k)) /\
    forall (f : list R) pol,
    length f = length (pols (ofR f) pol) -> f <> [] ->
    (forall x, In x f -> (1 <= x <= 100)%R) ->
    (forall p, In p (pols (ofR f) pol) -> horizontal p \/ vertical p) ->
    exists a b : list R, a_b cubic (ofR f) pol ap = Ok (ofR a, ofR b) /\
      length a = length f /\ length b = length f /\
      forall i, i < length f ->
        (horizontal (get ""%string (pols (ofR f) pol) i) -> rget a i = s 1 (rget f i) /\ rget b i = s 3 (rget f i)) /\
        (vertical (get ""%string (pols (ofR f) pol) i) -> rget a i = s 2 (rget f i) /\ rget b i = s 4 (rget f i)).
Proof.
  intros Hc ap t HT.
  pose proof (known_itu ap t HT) as IT. destruct (itu_nodes t IT) as (N4 & Inc & LL & E1 & E100).
  assert (LD : forall k, length (map dec (get [] t k)) = length (get [] t k)) by (intros; apply map_length).
  assert (SP : forall k, 1 <= k <= 4 -> exists s, notaknot_spline (map dec (get [] t 0)) (map dec (get [] t k)) s /\
     forall x, (1 <= x <= 100)%R -> cubic (row t 0) (row t k) (XFin x : XR) = XFin (s x)).
  { intros k Hk. destruct (Hc (map dec (get [] t 0)) (map dec (get [] t k))) as (s & Hs & Es); rewrite ?LD; auto.
    exists s. split; auto. intros x Hx. rewrite !row_XR. apply Es. rewrite LD, E1, E100. auto. }
  destruct (SP 1 ltac:(lia)) as (s1 & N1 & G1). destruct (SP 2 ltac:(lia)) as (s2 & N2 & G2).
  destruct (SP 3 ltac:(lia)) as (s3 & N3 & G3). destruct (SP 4 ltac:(lia)) as (s4 & N4' & G4).
  exists (fun k => match k with 1 => s1 | 2 => s2 | 3 => s3 | _ => s4 end). split.
  { intros k Hk. assert (k = 1 \/ k = 2 \/ k = 3 \/ k = 4) as [->|[->|[->| ->]]] by lia; assumption. }
  intros f pol EL NE HR HP.
  assert (Lf : length (ofR f) = length f) by apply ofR_length.
  destruct (a_b_accept XRsem cubic (ofR f) pol ap t) as (a & b & E & La & Lb & G); auto.
  { congruence. } { intros C. apply NE. destruct f; [auto|discriminate]. }
  { intros x Hx. unfold ofR in Hx. apply in_map_iff in Hx as (r & <- & Hr). apply in_range_XR. auto. }
  exists (map toR a), (map toR b).
  assert (RG : forall i, i < length f -> (1 <= rget f i <= 100)%R).
  { intros i Hi. apply HR. unfold rget. apply get_In. auto. }
  assert (AV : forall i, i < length f ->
    (horizontal (get ""%string (pols (ofR f) pol) i) ->
       get n_nan a i = (XFin (s1 (rget f i)) : XR) /\ get n_nan b i = (XFin (s3 (rget f i)) : XR)) /\
    (vertical (get ""%string (pols (ofR f) pol) i) ->
       get n_nan a i = (XFin (s2 (rget f i)) : XR) /\ get n_nan b i = (XFin (s4 (rget f i)) : XR))).
  { intros i Hi. destruct (G i ltac:(lia)) as [GH GV].
    rewrite (ofR_get n_nan f i Hi) in GH, GV. specialize (RG i Hi).
    split; intros H; [specialize (GH H); rewrite G1, G3 in GH by auto; exact GH
                     |specialize (GV H); rewrite G2, G4 in GV by auto; exact GV]. }
  assert (HVi : forall i, i < length f -> horizontal (get ""%string (pols (ofR f) pol) i) \/ vertical (get ""%string (pols (ofR f) pol) i)).
  { intros i Hi. apply HP. apply get_In. congruence. }
  assert (FIN : forall l : list XR, length l = length f ->
     (forall i, i < length f -> exists r, get n_nan l i = (XFin r : XR)) -> l = ofR (map toR l)).
  { intros l El Hl. apply get_ext with (d := (n_nan : XR)); [rewrite ofR_length, map_length; auto|].
    intros i Hi. rewrite ofR_get by (rewrite map_length; auto). unfold rget. rewrite get_map with (d := (n_nan : XR)) by auto.
    destruct (Hl i ltac:(lia)) as (r & ->). reflexivity. }
  assert (FA : a = ofR (map toR a)).
  { apply FIN; [lia|]. intros i Hi. destruct (AV i Hi) as [AH AV']. destruct (HVi i Hi) as [Q|Q]; [apply AH in Q|apply AV' in Q]; destruct Q; eauto. }
  assert (FB : b = ofR (map toR b)).
  { apply FIN; [lia|]. intros i Hi. destruct (AV i Hi) as [AH AV']. destruct (HVi i Hi) as [Q|Q]; [apply AH in Q|apply AV' in Q]; destruct Q; eauto. }
  rewrite <- FA, <- FB. split; [exact E|]. rewrite !map_length. split; [lia|]. split; [lia|].
  intros i Hi. destruct (AV i Hi) as [AH AV'].
  assert (RA : rget (map toR a) i = toR (get n_nan a i)) by (unfold rget; rewrite get_map with (d := (n_nan : XR)) by lia; auto).
  assert (RB : rget (map toR b) i = toR (get n_nan b i)) by (unfold rget; rewrite get_map with (d := (n_nan : XR)) by lia; auto).
  rewrite RA, RB.
  split; intros Q; [destruct (AH Q) as [-> ->]|destruct (AV' Q) as [-> ->]]; split; reflexivity.
Qed.

(** the frequency, by name of the table, from which the exponent falls *)
Lemma falls_known ap t x : known_table ap = Some t ->
  (ap = "ITU_2005"%string -> (6 <= x)%R) -> (ap = "ITU_2003"%string -> (8 <= x)%R) -> (falls_from t <= x)%R.
Proof.
  unfold known_table. intros E H5 H3. destruct (String.eqb ap "ITU_2003") eqn:E3.
  - apply String.eqb_eq in E3. injection E as <-. specialize (H3 E3). unfold falls_from. simpl. lra.
  - destruct (String.eqb ap "ITU_2005") eqn:E5; [|discriminate]. apply String.eqb_eq in E5. injection E as <-.
    specialize (H5 E5). unfold falls_from. simpl. lra.
Qed.

Definition same_pol (p q : string) : Prop := horizontal p /\ horizontal q \/ vertical p /\ vertical q.

Lemma a_b_order (cubic : list XR -> list XR -> XR -> XR) : exact_cubic cubic ->
  forall (f : list R) pol ap,
  length f = length (pols (ofR f) pol) -> f <> [] ->
  (forall x, In x f -> (1 <= x <= 100)%R) ->
  (forall p, In p (pols (ofR f) pol) -> horizontal p \/ vertical p) ->
  known_table ap <> None ->
  exists a b : list R, a_b cubic (ofR f) pol ap = Ok (ofR a, ofR b) /\
    length a = length f /\ length b = length f /\
    (forall i, i < length f -> (1 / 50000 < rget a i < 137 / 100)%R /\ (67 / 100 < rget b i < 171 / 100)%R) /\
    (forall i j, i < length f -> j < length f ->
       same_pol (get ""%string (pols (ofR f) pol) i) (get ""%string (pols (ofR f) pol) j) ->
       (rget f i < rget f j)%R ->
       ((5 <= rget f i)%R -> (rget a i < rget a j)%R) /\
       ((ap = "ITU_2005"%string -> (6 <= rget f i)%R) -> (ap = "ITU_2003"%string -> (8 <= rget f i)%R) -> (rget b j < rget b i)%R)).
Proof.
  intros Hc f pol ap EL NE HR HP HK. destruct (known_table ap) as [t|] eqn:HT; [|congruence]. clear HK.
  destruct (a_b_splines cubic Hc ap t HT) as (s & NS & G). destruct (G f pol EL NE HR HP) as (a & b & E & La & Lb & V). clear G.
  exists a, b. split; [exact E|]. split; [exact La|]. split; [exact Lb|]. pose proof (known_itu ap t HT) as IT.
  assert (RG : forall i, i < length f -> (1 <= rget f i <= 100)%R).
  { intros i Hi. apply HR. unfold rget. apply get_In. auto. }
  destruct (proj1 (itu_columns t 1 _ IT ltac:(lia) (NS 1 ltac:(lia))) ltac:(lia)) as [B1 M1].
  destruct (proj1 (itu_columns t 2 _ IT ltac:(lia) (NS 2 ltac:(lia))) ltac:(lia)) as [B2 M2].
  destruct (proj2 (itu_columns t 3 _ IT ltac:(lia) (NS 3 ltac:(lia))) ltac:(lia)) as [B3 M3].
  destruct (proj2 (itu_columns t 4 _ IT ltac:(lia) (NS 4 ltac:(lia))) ltac:(lia)) as [B4 M4].
  split.
  - intros i Hi. destruct (V i Hi) as [VH VV]. specialize (RG i Hi).
    destruct (HP (get ""%string (pols (ofR f) pol) i)) as [Q|Q]; [apply get_In; congruence|destruct (VH Q) as [-> ->]; auto|destruct (VV Q) as [-> ->]; auto].
  - intros i j Hi Hj SPp Hf. destruct (V i Hi) as [VHi VVi]. destruct (V j Hj) as [VHj VVj]. pose proof (RG i Hi). pose proof (RG j Hj).
    split.
    + intros H5. destruct SPp as [[Q1 Q2]|[Q1 Q2]];
      [rewrite (proj1 (VHi Q1)), (proj1 (VHj Q2)); apply M1|rewrite (proj1 (VVi Q1)), (proj1 (VVj Q2)); apply M2]; lra.
    + intros H5 H3. pose proof (falls_known ap t (rget f i) HT H5 H3). destruct SPp as [[Q1 Q2]|[Q1 Q2]];
      [rewrite (proj2 (VHi Q1)), (proj2 (VHj Q2)); apply M3|rewrite (proj2 (VVi Q1)), (proj2 (VVj Q2)); apply M4]; lra.
Qed.

(** *** the rain rate *)
Local Open Scope R_scope.

(** the rate of a real attenuation *)
Lemma rate_real al e R_min x : 0 < al -> 0 < e -> exists r, 0 <= r /\
  rate XRm (XFin al : XR) (XFin e : XR) (XFin R_min : XR) (XFin x : XR) = XFin r /\
  (x <= 0 -> r = 0) /\ (0 < x -> r = if Rlt_bool (Rpower (x / al) e) R_min then 0 else Rpower (x / al) e).
Proof.
  intros Ha He. destruct (Rtotal_order x 0) as [H|[H|H]].
  - exists 0. rewrite rate_exact_neg by auto. repeat split; auto; lra.
  - exists 0. subst. rewrite rate_exact_0 by auto. repeat split; auto; lra.
  - exists (if Rlt_bool (Rpower (x / al) e) R_min then 0 else Rpower (x / al) e).
    rewrite rate_exact_pos by auto. pose proof (Rpower_pos (x / al) e).
    destruct (Rlt_bool (Rpower (x / al) e) R_min); repeat split; auto; lra.
Qed.

Lemma Rpower_le_1 x e : 0 < x -> 0 < e -> Rpower x e <= 1 -> x <= 1.
Proof.
  intros Hx He H. destruct (Rle_lt_dec x 1) as [|C]; auto. exfalso.
  assert (1 < Rpower x e); [|lra]. rewrite <- (Rpower_O x Hx). apply Rpower_lt; auto.
Qed.

Lemma Rpower_light x y e e' : 0 < x -> x <= y -> 0 < e -> e <= e' -> Rpower x e' <= 1 -> Rpower x e' <= Rpower y e.
Proof.
  intros Hx Hxy He Hee H. assert (X1 : x <= 1) by (apply Rpower_le_1 with e'; auto; lra).
  apply Rle_trans with (Rpower x e).
  - unfold Rpower. destruct (Req_dec (e' * ln x) (e * ln x)) as [->|N]; [lra|]. left. apply exp_increasing.
    assert (ln x <= 0). { rewrite <- ln_1. destruct X1 as [L| ->]; [left; apply ln_increasing; auto|lra]. }
    assert (0 <= (e' - e) * (- ln x)) by (apply Rmult_le_pos; lra). lra.
  - apply Rle_Rpower_l; lra.
Qed.

(** the same attenuation read with larger [a] and smaller [b] *)
Lemma rate_light al al' e e' R_min x r r' : 0 < al -> al < al' -> 0 < e -> e <= e' ->
  rate XRm (XFin al : XR) (XFin e : XR) (XFin R_min : XR) (XFin x : XR) = XFin r ->
  rate XRm (XFin al' : XR) (XFin e' : XR) (XFin R_min : XR) (XFin x : XR) = XFin r' ->
  r' <= 1 -> r' <= r.
Proof.
  intros Ha Haa He Hee E E' H1.
  destruct (rate_real al e R_min x Ha He) as (q & Q0 & Q1 & Q2 & Q3). destruct (rate_real al' e' R_min x ltac:(lra) ltac:(lra)) as (q' & Q0' & Q1' & Q2' & Q3').
  rewrite Q1 in E. rewrite Q1' in E'. injection E as <-. injection E' as <-.
  destruct (Rle_lt_dec x 0) as [N|P]; [rewrite Q2' by auto; auto|]. specialize (Q3 P). specialize (Q3' P).
  destruct (Rlt_bool (Rpower (x / al') e') R_min) eqn:C; [lra|]. revert C. case Rlt_bool_spec; intros C; [discriminate|]. intros _.
  assert (D : Rpower (x / al') e' <= Rpower (x / al) e).
  { apply Rpower_light; auto; try lra.
    - apply Rdiv_lt_0_compat; lra.
    - unfold Rdiv. apply Rmult_le_compat_l; [lra|]. left. apply Rinv_lt_contravar; [apply Rmult_lt_0_compat|]; lra. }
  rewrite Rlt_bool_false in Q3 by lra. lra.
Qed.

Lemma map_rate_real al e R_min A : 0 < al -> 0 < e ->
  exists r, map (rate XRm (XFin al : XR) (XFin e : XR) (XFin R_min : XR)) (ofR A) = ofR r /\ List.length r = List.length A /\
    forall i, (i < List.length A)%nat -> rate XRm (XFin al : XR) (XFin e : XR) (XFin R_min : XR) (XFin (rget A i) : XR) = XFin (rget r i) /\ 0 <= rget r i.
Proof.
  intros Ha He. induction A as [|x A (r & E & L & G)].
  - exists []. repeat split; intros; simpl in *; lia.
  - destruct (rate_real al e R_min x Ha He) as (q & Q0 & Q1 & _). exists (q :: r). split; [|split].
    + change (map (rate XRm (XFin al : XR) (XFin e : XR) (XFin R_min : XR)) (ofR (x :: A))) with
        (rate XRm (XFin al : XR) (XFin e : XR) (XFin R_min : XR) (XFin x : XR) :: map (rate XRm (XFin al : XR) (XFin e : XR) (XFin R_min : XR)) (ofR A)).
      rewrite Q1, E. reflexivity.
    + simpl. lia.
    + intros [|i] Hi; [auto|]. apply (G i). simpl in Hi. lia.
Qed.

(** attenuations [A] on a path of [l] km at two frequencies: the higher one never gives more light rain *)
Lemma calc_light cubic : exact_cubic cubic ->
  forall (A : list R) l f g pol ap R_min, 0 < l -> 6 <= f -> (ap = "ITU_2003"%string -> 8 <= f) -> f < g -> g <= 100 ->
  horizontal pol \/ vertical pol -> known_table ap <> None ->
  exists rf rg : list R,
    calc_R_from_A XRm cubic (ofR A) (XFin l : XR) (Some [XFin f : XR]) (Some (PolStr pol)) None None ap (XFin R_min : XR) = Ok (ofR rf) /\
    calc_R_from_A XRm cubic (ofR A) (XFin l : XR) (Some [XFin g : XR]) (Some (PolStr pol)) None None ap (XFin R_min : XR) = Ok (ofR rg) /\
    List.length rf = List.length A /\ List.length rg = List.length A /\
    forall i, (i < List.length A)%nat -> 0 <= rget rf i /\ 0 <= rget rg i /\ (rget rg i <= 1 -> rget rg i <= rget rf i).
Proof.
  intros Hc A l f g pol ap R_min Hl Hf H3 Hfg Hg Hp Ht. destruct (known_table ap) as [t|] eqn:HT; [|congruence].
  destruct (a_b_splines cubic Hc ap t HT) as (s & NS & G). pose proof (known_itu ap t HT) as IT.
  destruct (proj1 (itu_columns t 1 _ IT ltac:(lia) (NS 1%nat ltac:(lia))) ltac:(lia)) as [B1 M1].
  destruct (proj1 (itu_columns t 2 _ IT ltac:(lia) (NS 2%nat ltac:(lia))) ltac:(lia)) as [B2 M2].
  destruct (proj2 (itu_columns t 3 _ IT ltac:(lia) (NS 3%nat ltac:(lia))) ltac:(lia)) as [B3 M3].
  destruct (proj2 (itu_columns t 4 _ IT ltac:(lia) (NS 4%nat ltac:(lia))) ltac:(lia)) as [B4 M4].
  pose proof (falls_known ap t f HT (fun _ => Hf) H3) as FF.
  assert (CF : forall x, 1 <= x <= 100 -> exists a b, a_b cubic [XFin x : XR] (PolArr [pol]) ap = Ok ([XFin a : XR], [XFin b : XR]) /\
     (horizontal pol -> a = s 1%nat x /\ b = s 3%nat x) /\ (vertical pol -> a = s 2%nat x /\ b = s 4%nat x)).
  { intros x Hx. destruct (G [x] (PolArr [pol])) as (a & b & E & La & Lb & V); auto.
    { congruence. } { intros y [<-|[]]; auto. } { intros y [<-|[]]; auto. }
    destruct a as [|a0 [|a1 a]]; try discriminate. destruct b as [|b0 [|b1 b]]; try discriminate.
    exists a0, b0. split; [exact E|]. exact (V 0%nat ltac:(simpl; lia)). }
  destruct (CF f ltac:(lra)) as (af & bf & Ef & Hf1 & Vf1). destruct (CF g ltac:(lra)) as (ag & bg & Eg & Hg1 & Vg1).
  assert (AB : 0 < af /\ af < ag /\ 0 < bg /\ bg < bf).
  { destruct Hp as [P|P].
    - destruct (Hf1 P) as [-> ->]. destruct (Hg1 P) as [-> ->].
      pose proof (B1 f ltac:(lra)). pose proof (B3 g ltac:(lra)). pose proof (M1 f g ltac:(lra) Hfg Hg). pose proof (M3 f g FF Hfg Hg). lra.
    - destruct (Vf1 P) as [-> ->]. destruct (Vg1 P) as [-> ->].
      pose proof (B2 f ltac:(lra)). pose proof (B4 g ltac:(lra)). pose proof (M2 f g ltac:(lra) Hfg Hg). pose proof (M4 f g FF Hfg Hg). lra. }
  destruct AB as (Pa & Laa & Pb & Lbb).
  assert (DV : forall b, 0 < b -> n_div one (XFin b : XR) = (XFin (1 / b) : XR)) by (intros b Hb; apply (xdiv_fin 1 b); lra).
  rewrite (calc_single_freq XRsem XRm cubic (ofR A) (XFin l : XR) (XFin f : XR) pol ap _ _ (XFin R_min : XR) (pos_XR bf ltac:(lra)) Ef).
  rewrite (calc_single_freq XRsem XRm cubic (ofR A) (XFin l : XR) (XFin g : XR) pol ap _ _ (XFin R_min : XR) (pos_XR bg ltac:(lra)) Eg).
  rewrite !(calc_scalar XRsem) by (apply pos_XR; lra). rewrite !DV by lra.
  change (n_mul (XFin af : XR) (XFin l : XR)) with (XFin (af * l) : XR). change (n_mul (XFin ag : XR) (XFin l : XR)) with (XFin (ag * l) : XR).
  assert (P1 : 0 < af * l) by (apply Rmult_lt_0_compat; lra). assert (P2 : af * l < ag * l) by (apply Rmult_lt_compat_r; lra).
  assert (P3 : 0 < 1 / bf) by (apply Rdiv_lt_0_compat; lra).
  assert (P4 : 1 / bf <= 1 / bg) by (unfold Rdiv; rewrite !Rmult_1_l; left; apply Rinv_lt_contravar; [apply Rmult_lt_0_compat|]; lra).
  destruct (map_rate_real (af * l) (1 / bf) R_min A P1 P3) as (rf & F1 & F2 & F3).
  destruct (map_rate_real (ag * l) (1 / bg) R_min A ltac:(lra) ltac:(lra)) as (rg & G1 & G2 & G3).
  exists rf, rg. rewrite F1, G1. split; [reflexivity|]. split; [reflexivity|]. split; [exact F2|]. split; [exact G2|].
  intros i Hi. destruct (F3 i Hi) as [F4 F5]. destruct (G3 i Hi) as [G4 G5]. split; [exact F5|]. split; [exact G5|].
  apply (rate_light (af * l) (ag * l) (1 / bf) (1 / bg) R_min (rget A i)); auto.
Qed.
