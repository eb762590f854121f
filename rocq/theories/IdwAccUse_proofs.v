(** * Consequences of the accuracy of maps in binary64: proofs *)
From Coq Require Import List ZArith Bool Reals Lra Lia.
From Flocq Require Import Core IEEE754.BinarySingleNaN.
From Verif Require Import Base Num NumF64 NumList NpOps Libm RealSpec RealStat Idw_model Idw_spec Idw_proofs Idw_proofs3 HaversineFloat_spec RainFloat_spec IdwSymFloat_spec IdwAcc_spec IdwAccUse_spec.
From Verif Require IdwAcc_proofs2 IdwPower_proofs IdwSym_proofs.
Import ListNotations.
Local Open Scope R_scope.

Local Notation exact_call t qs z k pr ub := (snd (tree_call XRm brute_query t (map ofP (map rpt_of qs)) (ofR (reals z)) k zero (XFin pr : XR) (ofU (rcut ub)))).
Local Notation place0 := ((n_nan, n_nan) : place).

Lemma reals_get z i : (i < length z)%nat -> rget (reals z) i = B2R (nget z i).
Proof. intros H. unfold rget, reals, nget. rewrite get_map with (d := n_nan : F64) by auto. reflexivity. Qed.
Lemma place_get qs j : (j < length qs)%nat -> get (0, 0) (map rpt_of qs) j = rpt_of (get place0 qs j).
Proof. intros H. rewrite get_map with (d := place0) by auto. reflexivity. Qed.

Section Use.
Context (L : libm F64) (e : R) (query : list place -> place -> nat -> F64 -> option F64 -> list (F64 * nat)) (X qs : list place) (k : nat) (p : F64) (pr : R) (ub : option F64) (t : tree F64).
Hypothesis H : plain_setting L e query X qs k p pr ub t.

Lemma both z M : plain_values X z M ->
  exists t' v v', new_tree (map ofP (map rpt_of X)) = Ok t' /\ snd (tree_call L query t qs z k zero p ub) = Ok v /\ exact_call t' qs z k pr ub = Ok v' /\
    length v' = length qs /\
    forall j, (j < length qs)%nat -> (nget v j = n_nan /\ get (n_nan : XR) v' j = n_nan) \/
      exists r r', is_num (nget v j) r /\ get (n_nan : XR) v' j = (XFin r' : XR) /\ Rabs (r - r') <= map_rounding M e pr k.
Proof using H.
  intros V. destruct H. destruct V.
  destruct (IdwAcc_proofs2.float_map_close L e query brute_query X qs z k p pr ub M t ps_pow ps_e ps_search brute_query_ok ps_tree ps_places ps_two ps_few ps_p ps_p4 ps_ub pv_len pv_num pv_max ps_apart) as (t' & v & v' & A & B & C & _ & L' & D).
  exists t', v, v'. do 4 (split; [assumption|]). exact D.
Qed.
Lemma not_both (v' : list XR) j r : get (n_nan : XR) v' j = (XFin r : XR) -> get (n_nan : XR) v' j = n_nan -> False.
Proof. intros A B. rewrite A in B. discriminate. Qed.
Lemma apart_far j i : (j < length qs)%nat -> (i < length X)%nat -> 0 < far X (get place0 qs j) i -> 1 / 10000000000 <= dist_to (map rpt_of X) (get (0, 0) (map rpt_of qs) j) i.
Proof using H.
  intros Hj Hi F. rewrite place_get by auto. destruct H. destruct (ps_apart (get place0 qs j) ltac:(apply nth_In; auto)) as (_ & WA).
  unfold far in F. unfold dist_to in *. assert (I : In (get (0, 0) (map rpt_of X) i) (map rpt_of X)) by (apply nth_In; rewrite map_length; auto).
  destruct (wa_range _ _ _ WA _ I) as [E|[E _]]; [lra|]. apply Rle_trans with (2 := E). simpl. lra.
Qed.


Let RX := map rpt_of X.
Let RQ := map rpt_of qs.
Lemma len_RX : length RX = length X. Proof. apply map_length. Qed.
Lemma RQ_ne : RQ <> [].
Proof using H. destruct H. unfold RQ. destruct qs; [congruence|discriminate]. Qed.
Lemma len_reals z : length (reals z) = length z. Proof. apply map_length. Qed.

Section At.
Context (j : nat) (Hj : (j < length qs)%nat) (away : forall i, (i < length X)%nat -> 0 < far X (get place0 qs j) i).
Lemma Hj' : (j < length RQ)%nat.
Proof using Hj. unfold RQ. rewrite map_length. exact Hj. Qed.
Lemma away' i : (i < length RX)%nat -> 1 / 10000000000 <= dist_to RX (get (0, 0) RQ j) i.
Proof using H Hj away. intros Hi. rewrite len_RX in Hi. apply apart_far; auto. Qed.
Lemma dist_far i : dist_to RX (get (0, 0) RQ j) i = far X (get place0 qs j) i.
Proof using Hj. unfold RQ. rewrite place_get by auto. reflexivity. Qed.
Lemma range_far m : in_range (far X (get place0 qs j)) (rcut ub) m -> in_range (dist_to RX (get (0, 0) RQ j)) (rcut ub) m.
Proof using Hj. unfold in_range. destruct (rcut ub); auto. rewrite dist_far. auto. Qed.

Lemma influence_float i m z z' M : plain_values X z M -> plain_values X z' M -> (i < length X)%nat -> (m < length X)%nat -> in_range (far X (get place0 qs j)) (rcut ub) m ->
  (forall h, (h < length X)%nat -> h <> i -> nget z' h = nget z h) ->
  exists v v' r r', snd (tree_call L query t qs z k zero p ub) = Ok v /\ snd (tree_call L query t qs z' k zero p ub) = Ok v' /\ is_num (nget v j) r /\ is_num (nget v' j) r' /\
  Rabs (r' - r) <= Rabs (B2R (nget z' i) - B2R (nget z i)) * Rpower (far X (get place0 qs j) m / far X (get place0 qs j) i) pr + 2 * map_rounding M e pr k.
Proof using H Hj away.
  intros V V' Hi Hm IR Z. destruct (both z M V) as (t' & v & w & T & A & B & _ & D). destruct (both z' M V') as (t'' & v' & w' & T' & A' & B' & _ & D').
  assert (ET : t'' = t') by congruence. subst t''.
  pose proof (pv_len _ _ _ V) as LZ. pose proof (pv_len _ _ _ V') as LZ'.
  destruct (IdwPower_proofs.station_influence brute_query RX RQ k (rcut ub) t' brute_query_ok T RQ_ne (ps_two _ _ _ _ _ _ _ _ _ _ H) j Hj' away' i m pr (reals z) (reals z') w w') as (r & r' & R1 & R2 & R3);
    try (rewrite len_RX; assumption); try (rewrite len_reals, len_RX; assumption); try assumption.
  - apply range_far, IR.
  - apply (proj1 (ps_p4 _ _ _ _ _ _ _ _ _ _ H)).
  - intros h Hh N. rewrite len_RX in Hh. rewrite !reals_get by lia. rewrite Z by auto. reflexivity.
  - rewrite !dist_far, !reals_get in R3 by lia.
    destruct (D j Hj) as [(_ & N)|(x & x' & I & G & C)]; [destruct (not_both _ _ _ R1 N)|]. destruct (D' j Hj) as [(_ & N)|(y & y' & I' & G' & C')]; [destruct (not_both _ _ _ R2 N)|].
    rewrite R1 in G. injection G as <-. rewrite R2 in G'. injection G' as <-.
    exists v, v', x, y. do 4 (split; [assumption|]). apply Rabs_le_inv in C, C', R3. apply Rabs_le. lra.
Qed.

Lemma nearest_float i0 d1 D z M : plain_values X z M -> (i0 < length X)%nat -> in_range (far X (get place0 qs j)) (rcut ub) i0 -> far X (get place0 qs j) i0 < d1 ->
  (forall i, (i < length X)%nat -> i <> i0 -> d1 <= far X (get place0 qs j) i) -> (forall i, (i < length X)%nat -> Rabs (B2R (nget z i) - B2R (nget z i0)) <= D) ->
  exists v r, snd (tree_call L query t qs z k zero p ub) = Ok v /\ is_num (nget v j) r /\
  Rabs (r - B2R (nget z i0)) <= INR (k - 1) * Rpower (far X (get place0 qs j) i0 / d1) pr * D + map_rounding M e pr k.
Proof using H Hj away.
  intros V Hi IR F0 F1 HD. destruct (both z M V) as (t' & v & w & T & A & B & _ & DD). pose proof (pv_len _ _ _ V) as LZ.
  destruct (IdwPower_proofs.nearest_bound brute_query RX RQ k (rcut ub) t' brute_query_ok T RQ_ne (ps_two _ _ _ _ _ _ _ _ _ _ H) j i0 d1 Hj') with (p := pr) (D := D) (z := reals z) (v := w) as (r & R1 & R3);
    try (rewrite len_RX; assumption); try (rewrite len_reals, len_RX; assumption); try assumption.
  - apply range_far, IR.
  - split; [apply away'; rewrite len_RX; auto|]. rewrite dist_far. auto.
  - intros i Ni Hh. rewrite len_RX in Ni. rewrite dist_far. auto.
  - apply (proj1 (ps_p4 _ _ _ _ _ _ _ _ _ _ H)).
  - intros i Ni. rewrite len_RX in Ni. rewrite !reals_get by lia. auto.
  - rewrite !dist_far, !reals_get in R3 by lia.
    destruct (DD j Hj) as [(_ & N)|(x & x' & I & G & C)]; [destruct (not_both _ _ _ R1 N)|].
    rewrite R1 in G. injection G as <-. exists v, x. do 2 (split; [assumption|]). apply Rabs_le_inv in C, R3. apply Rabs_le. lra.
Qed.

Lemma zero_float z M : pr = 0 -> plain_values X z M ->
  exists used v, is_nearest (far X (get place0 qs j)) (length X) k (rcut ub) used /\ snd (tree_call L query t qs z k zero p ub) = Ok v /\
  (used = [] -> nget v j = n_nan) /\
  (used <> [] -> exists r, is_num (nget v j) r /\ Rabs (r - rmean (map (fun i => B2R (nget z i)) used)) <= map_rounding M e pr k).
Proof using H Hj away.
  intros P0 V. destruct (both z M V) as (t' & v & w & T & A & B & _ & DD). pose proof (pv_len _ _ _ V) as LZ.
  destruct (IdwPower_proofs.power_zero brute_query RX RQ k (rcut ub) t' brute_query_ok T RQ_ne (ps_two _ _ _ _ _ _ _ _ _ _ H) j Hj' away') as (used & U & R1).
  destruct (R1 (reals z) w ltac:(rewrite len_reals, len_RX; auto) ltac:(rewrite <- P0; exact B)) as (R2 & R3).
  unfold RQ in U. rewrite place_get in U by auto. rewrite len_RX in U.
  exists used, v. split; [exact U|split; [exact A|]]. split; intros N.
  - destruct (DD j Hj) as [(E & _)|(x & x' & _ & G & _)]; [exact E|]. rewrite (R2 N) in G. discriminate.
  - specialize (R3 N). destruct (DD j Hj) as [(_ & E)|(x & x' & I & G & C)]; [destruct (not_both _ _ _ R3 E)|]. rewrite R3 in G. injection G as <-. exists x. split; [exact I|].
    replace (map (fun i => B2R (nget z i)) used) with (map (rget (reals z)) used); [exact C|]. apply map_ext_in. intros i Hi. apply reals_get. rewrite LZ.
    exact (proj1 (nn_range _ _ _ _ _ U i Hi)).
Qed.
End At.

(** missing values of the exact map do not depend on the station values *)
Lemma same_gaps j (w1 w2 : list XR) z1 z2 M1 M2 x : plain_values X z1 M1 -> plain_values X z2 M2 -> forall t', new_tree (map ofP RX) = Ok t' ->
  exact_call t' qs z1 k pr ub = Ok w1 -> exact_call t' qs z2 k pr ub = Ok w2 -> (j < length qs)%nat -> get (n_nan : XR) w1 j = n_nan -> get (n_nan : XR) w2 j = (XFin x : XR) -> False.
Proof using H.
  intros V1 V2 t' T B1 B2' Hj N1 G2. change (new_tree (map ofP (map rpt_of X)) = Ok t') in T.
  destruct (both z1 M1 V1) as (t1 & v1 & u1 & T1 & _ & C1 & L1 & _). destruct (both z2 M2 V2) as (t2 & v2 & u2 & T2 & _ & C2 & L2 & _).
  assert (t1 = t' /\ t2 = t') as (-> & ->) by (split; congruence). assert (u1 = w1 /\ u2 = w2) as (-> & ->) by (split; congruence).
  pose proof (pv_len _ _ _ V1) as Z1. pose proof (pv_len _ _ _ V2) as Z2.
  destruct (IdwSym_proofs.idw_values brute_query RX RQ k pr (rcut ub) t' brute_query_ok T RQ_ne (ps_two _ _ _ _ _ _ _ _ _ _ H)) as (LIN & _).
  pose proof (LIN 0 1 (reals z1) (reals z2) w1 w2 ltac:(rewrite len_reals, len_RX; auto) ltac:(rewrite len_reals, len_RX; auto) B1 B2') as E.
  assert (E2 : map2 (fun x y => 0 * x + 1 * y) (reals z1) (reals z2) = reals z2).
  { apply nth_ext with 0 0; [rewrite map2_length; rewrite !len_reals; lia|]. rewrite map2_length by (rewrite !len_reals; lia). rewrite ?len_reals. intros i Hi. change (get 0 (map2 (fun x y => 0 * x + 1 * y) (reals z1) (reals z2)) i = get 0 (reals z2) i).
    rewrite (get_map2 _ 0 0 0) by (rewrite ?len_reals; lia). ring. }
  rewrite E2 in E. unfold RQ in E. assert (EW : w2 = map2 (fun x y : XR => n_add (n_mul (XFin 0 : XR) x) (n_mul (XFin 1 : XR) y)) w1 w2) by congruence.
  rewrite EW, (get_map2 _ (n_nan : XR) (n_nan : XR)), N1 in G2 by lia. destruct (get (n_nan : XR) w2 j); discriminate G2.
Qed.

Lemma linear_float a b z1 z2 z3 M1 M2 M3 : plain_values X z1 M1 -> plain_values X z2 M2 -> plain_values X z3 M3 ->
  (forall i, (i < length X)%nat -> B2R (nget z3 i) = a * B2R (nget z1 i) + b * B2R (nget z2 i)) ->
  exists v1 v2 v3, snd (tree_call L query t qs z1 k zero p ub) = Ok v1 /\ snd (tree_call L query t qs z2 k zero p ub) = Ok v2 /\ snd (tree_call L query t qs z3 k zero p ub) = Ok v3 /\
  forall j, (j < length qs)%nat -> (nget v1 j = n_nan /\ nget v2 j = n_nan /\ nget v3 j = n_nan) \/
  exists r1 r2 r3, is_num (nget v1 j) r1 /\ is_num (nget v2 j) r2 /\ is_num (nget v3 j) r3 /\
    Rabs (r3 - (a * r1 + b * r2)) <= Rabs a * map_rounding M1 e pr k + Rabs b * map_rounding M2 e pr k + map_rounding M3 e pr k.
Proof using H.
  intros V1 V2 V3 Z. destruct (both z1 M1 V1) as (t' & v1 & w1 & T & A1 & B1 & L1 & D1). destruct (both z2 M2 V2) as (t2 & v2 & w2 & T2 & A2 & B2' & L2 & D2). destruct (both z3 M3 V3) as (t3 & v3 & w3 & T3 & A3 & B3 & L3 & D3).
  assert (ET : t2 = t' /\ t3 = t') by (split; congruence). destruct ET as (-> & ->).
  pose proof (pv_len _ _ _ V1) as Z1. pose proof (pv_len _ _ _ V2) as Z2. pose proof (pv_len _ _ _ V3) as Z3.
  assert (E3 : reals z3 = map2 (fun x y => a * x + b * y) (reals z1) (reals z2)).
  { apply nth_ext with 0 0; [rewrite map2_length; rewrite !len_reals; lia|]. rewrite ?len_reals. intros i Hi. change (rget (reals z3) i = get 0 (map2 (fun x y => a * x + b * y) (reals z1) (reals z2)) i).
    rewrite (get_map2 _ 0 0 0) by (rewrite ?len_reals; lia). change (rget (reals z3) i = a * rget (reals z1) i + b * rget (reals z2) i). rewrite !reals_get by lia. apply Z. lia. }
  exists v1, v2, v3. do 3 (split; [assumption|]). intros j Hj.
  assert (G : get (n_nan : XR) w3 j = n_add (n_mul (XFin a : XR) (get (n_nan : XR) w1 j)) (n_mul (XFin b : XR) (get (n_nan : XR) w2 j))).
  { destruct (IdwSym_proofs.idw_values brute_query RX RQ k pr (rcut ub) t' brute_query_ok T RQ_ne (ps_two _ _ _ _ _ _ _ _ _ _ H)) as (LIN & _).
    specialize (LIN a b (reals z1) (reals z2) w1 w2 ltac:(rewrite len_reals, len_RX; auto) ltac:(rewrite len_reals, len_RX; auto) B1 B2'). rewrite <- E3 in LIN. unfold RQ in LIN.
    assert (EW : w3 = map2 (fun x y : XR => n_add (n_mul (XFin a : XR) x) (n_mul (XFin b : XR) y)) w1 w2) by congruence.
    rewrite EW. rewrite (get_map2 _ (n_nan : XR) (n_nan : XR)) by lia. reflexivity. }
  destruct (D1 j Hj) as [(N1 & X1)|(r1 & x1 & I1 & G1 & C1)].
  - left. split; [exact N1|]. destruct (D3 j Hj) as [(N3 & X3)|(r3 & x3 & I3 & G3 & C3)]; [|exfalso; rewrite G, X1 in G3; destruct (get (n_nan : XR) w2 j); discriminate G3].
    split; [|exact N3]. destruct (D2 j Hj) as [(N2 & X2)|(r2 & x2 & I2 & G2 & C2)]; [exact N2|].
    exfalso. exact (same_gaps j w1 w2 z1 z2 M1 M2 x2 V1 V2 t' T B1 B2' Hj X1 G2).
  - destruct (D2 j Hj) as [(N2 & X2)|(r2 & x2 & I2 & G2 & C2)].
    { exfalso. exact (same_gaps j w2 w1 z2 z1 M2 M1 x1 V2 V1 t' T B2' B1 Hj X2 G1). }
    right. rewrite G1, G2 in G. destruct (D3 j Hj) as [(N3 & X3)|(r3 & x3 & I3 & G3 & C3)]; [exfalso; rewrite G in X3; discriminate|].
    rewrite G in G3. injection G3 as <-. exists r1, r2, r3. do 3 (split; [assumption|]).
    replace (r3 - (a * r1 + b * r2)) with ((r3 - (a * x1 + b * x2)) - (a * (r1 - x1) + b * (r2 - x2))) by ring.
    assert (Y1 : Rabs (a * (r1 - x1)) <= Rabs a * map_rounding M1 e pr k) by (rewrite Rabs_mult; apply Rmult_le_compat_l; [apply Rabs_pos|exact C1]).
    assert (Y2 : Rabs (b * (r2 - x2)) <= Rabs b * map_rounding M2 e pr k) by (rewrite Rabs_mult; apply Rmult_le_compat_l; [apply Rabs_pos|exact C2]).
    apply Rabs_le_inv in Y1, Y2, C3. apply Rabs_le. lra.
Qed.
End Use.
