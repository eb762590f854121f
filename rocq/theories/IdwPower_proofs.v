(** * Proofs for C144 *)
From Coq Require Import List ZArith Bool Reals Lra Lia Arith.
From Flocq Require Import Core.Raux.
From Verif Require Import Base Num NumF64 NumList NpOps Libm RealSpec RealStat Idw_model Idw_spec Idw_proofs IdwSym_proofs.
Import ListNotations.
Local Open Scope R_scope.
Local Notation length := List.length.

Local Notation wt d p i := (/ Rpower (d i) p).

Lemma wt_pos (d : nat -> R) p i : 0 < wt d p i.
Proof. apply Rinv_0_lt_compat. unfold Rpower. apply exp_pos. Qed.

(** the value above a level, weighted *)
Lemma idw_centred (d : nat -> R) z p used r c : r * rsum (map (fun i => wt d p i) used) = rsum (map (fun i => rget z i * wt d p i) used) ->
  (r - c) * rsum (map (fun i => wt d p i) used) = rsum (map (fun i => (rget z i - c) * wt d p i) used).
Proof.
  intros H. rewrite Rmult_minus_distr_r, H. clear H. induction used as [|i l IH]; cbn [map]; [unfold rsum; cbn; ring|].
  change (rsum (?x :: ?l)) with (x + rsum l). cbn [rsum fold_right] in *. fold (rsum (map (fun i => (rget z i - c) * wt d p i) l)).
  fold (rsum (map (fun i => rget z i * wt d p i) l)). fold (rsum (map (fun i => wt d p i) l)).
  unfold rsum in *. lra.
Qed.

(** ** exponent 0 *)
Lemma idw_zero (d : nat -> R) z i0 u v : is_idw d z 0 (i0 :: u) v -> 1 / 10000000000 <= d i0 -> (forall i, In i (i0 :: u) -> 0 < d i) ->
  v = (XFin (rmean (map (rget z) (i0 :: u))) : XR).
Proof.
  intros I Hd Hp. cbn [is_idw] in I. destruct (Rlt_dec (d i0) (1 / 10000000000)) as [|_]; [lra|]. destruct I as (r & -> & E).
  refine (f_equal (XFin : R -> XR) _). set (us := i0 :: u) in *.
  assert (W : forall l, (forall i, In i l -> 0 < d i) -> rsum (map (fun i => wt d 0 i) l) = INR (length l) /\ rsum (map (fun i => rget z i * wt d 0 i) l) = rsum (map (rget z) l)).
  { induction l as [|i l IH]; intros H; [split; reflexivity|]. destruct (IH ltac:(intros; apply H; right; auto)) as [A B].
    assert (O : wt d 0 i = 1) by (rewrite Rpower_O by (apply H; left; auto); apply Rinv_1).
    cbn [map length]. rewrite S_INR. unfold rsum in *. cbn [fold_right]. rewrite O, A, B. split; ring. }
  destruct (W us Hp) as [A B]. rewrite A, B in E. unfold rmean. rewrite map_length. rewrite <- E.
  assert (P : 0 < INR (length us)) by (apply lt_0_INR; cbn; lia). field. lra.
Qed.

(** ** the share of one station *)
Lemma share_le (d : nat -> R) p i j : 0 < d i -> 0 < d j -> 0 <= p -> wt d p i = wt d p j * Rpower (d j / d i) p.
Proof.
  intros Hi Hj Hp. unfold Rdiv. rewrite <- Rpower_mult_distr by (auto; apply Rinv_0_lt_compat; auto).
  assert (E : Rpower (/ d i) p = / Rpower (d i) p). { unfold Rpower. rewrite ln_Rinv by auto. rewrite <- exp_Ropp. f_equal. ring. }
  rewrite E. assert (0 < Rpower (d j) p) by (unfold Rpower; apply exp_pos). field. split; [|lra]. unfold Rpower. pose proof (exp_pos (p * ln (d i))). lra.
Qed.

Lemma rsum_in {A} (f : A -> R) l x : (forall y, In y l -> 0 <= f y) -> In x l -> f x <= rsum (map f l).
Proof.
  induction l as [|y l IH]; intros H Hx; [destruct Hx|]. cbn [map]. change (rsum (f y :: map f l)) with (f y + rsum (map f l)).
  assert (N : 0 <= rsum (map f l)). { clear -H. induction l as [|z l IH]; [cbn; lra|]. cbn [map]. change (rsum (f z :: map f l)) with (f z + rsum (map f l)).
    pose proof (H z ltac:(right; left; auto)). assert (0 <= rsum (map f l)); [|lra]. apply IH. intros w [<-|Hw]; apply H; [left|right; right]; auto. }
  destruct Hx as [->|Hx]; [lra|]. specialize (IH ltac:(intros; apply H; right; auto) Hx). pose proof (H y ltac:(left; auto)). lra.
Qed.

Lemma only_one (d : nat -> R) z z' p l i : NoDup l -> In i l -> (forall h, In h l -> h <> i -> rget z' h = rget z h) ->
  rsum (map (fun h => rget z' h * wt d p h) l) - rsum (map (fun h => rget z h * wt d p h) l) = (rget z' i - rget z i) * wt d p i.
Proof.
  induction l as [|h l IH]; intros ND Hi H; [destruct Hi|]. inversion ND as [|? ? NI ND']; subst. cbn [map]. unfold rsum in *. cbn [fold_right].
  destruct (Nat.eq_dec h i) as [->|NE].
  - assert (E : fold_right Rplus 0 (map (fun h => rget z' h * wt d p h) l) = fold_right Rplus 0 (map (fun h => rget z h * wt d p h) l)).
    { f_equal. apply map_ext_in. intros h Hh. rewrite H; [auto|right; auto|]. intros ->. auto. }
    rewrite E. ring.
  - destruct Hi as [|Hi]; [congruence|]. specialize (IH ND' Hi ltac:(intros; apply H; [right|]; auto)). rewrite (H h) by (auto; left; auto). lra.
Qed.

Lemma influence (d : nat -> R) z z' p i0 u v v' i j : is_idw d z p (i0 :: u) v -> is_idw d z' p (i0 :: u) v' -> NoDup (i0 :: u) ->
  1 / 10000000000 <= d i0 -> 0 < d i -> 0 < d j -> 0 <= p -> In i (i0 :: u) -> In j (i0 :: u) -> (forall h, In h (i0 :: u) -> h <> i -> rget z' h = rget z h) ->
  exists r r', v = (XFin r : XR) /\ v' = (XFin r' : XR) /\ Rabs (r' - r) <= Rabs (rget z' i - rget z i) * Rpower (d j / d i) p.
Proof.
  intros I I' ND Hd Hdi Hdj Hp Hi Hj H. cbn [is_idw] in I, I'. destruct (Rlt_dec (d i0) (1 / 10000000000)) as [|_]; [lra|].
  destruct I as (r & -> & E), I' as (r' & -> & E'). exists r, r'. do 2 (split; [reflexivity|]).
  set (us := i0 :: u) in *. pose proof (weights_pos d p us ltac:(discriminate)) as W. set (WS := rsum (map (fun i => wt d p i) us)) in *.
  assert (D : (r' - r) * WS = (rget z' i - rget z i) * wt d p i) by (rewrite <- (only_one d z z' p us i ND Hi H), <- E, <- E'; ring).
  assert (S : wt d p i <= Rpower (d j / d i) p * WS).
  { rewrite (share_le d p i j Hdi Hdj Hp), Rmult_comm. apply Rmult_le_compat_l; [left; unfold Rpower; apply exp_pos|].
    apply (rsum_in (fun i => wt d p i)); auto. intros; left; apply wt_pos. }
  apply (Rmult_le_reg_r WS); auto. rewrite <- (Rabs_right WS) at 1 by lra. rewrite <- Rabs_mult, D, Rabs_mult, (Rabs_right (wt d p i)) by (left; apply wt_pos).
  rewrite Rmult_assoc. apply Rmult_le_compat_l; [apply Rabs_pos|auto].
Qed.

(** ** large exponents *)
Lemma rpower_base_le a b p : 0 < a -> a <= b -> 0 <= p -> Rpower a p <= Rpower b p.
Proof. intros. apply Rle_Rpower_l; auto. Qed.

Lemma near_nearest (d : nat -> R) z p i0 u v d1 D : is_idw d z p (i0 :: u) v -> 1 / 10000000000 <= d i0 -> 0 < d1 -> 0 <= p -> 0 <= D ->
  (forall i, In i u -> d1 <= d i /\ Rabs (rget z i - rget z i0) <= D) ->
  exists r, v = (XFin r : XR) /\ Rabs (r - rget z i0) <= INR (length u) * Rpower (d i0 / d1) p * D.
Proof.
  intros I Hd H1 Hp HD H. cbn [is_idw] in I. destruct (Rlt_dec (d i0) (1 / 10000000000)) as [|_]; [lra|]. destruct I as (r & -> & E).
  exists r. split; [reflexivity|]. set (us := i0 :: u) in *. pose proof (weights_pos d p us ltac:(discriminate)) as W.
  apply (idw_centred d z p us r (rget z i0)) in E. set (WS := rsum (map (fun i => wt d p i) us)) in *.
  set (q := Rpower (d i0 / d1) p). assert (Q : 0 < q) by (unfold q, Rpower; apply exp_pos).
  assert (W0 : wt d p i0 <= WS) by (apply (rsum_in (fun i => wt d p i)); [intros; left; apply wt_pos|left; auto]).
  assert (B : Rabs (rsum (map (fun i => (rget z i - rget z i0) * wt d p i) u)) <= INR (length u) * (q * wt d p i0 * D)).
  { clear E. clearbody WS. unfold us in *. clear us W. revert H. clear W0. induction u as [|i l IH]; intros H; [cbn; rewrite Rabs_R0; lra|].
    cbn [map length]. rewrite S_INR. change (rsum (?x :: ?y)) with (x + rsum y). eapply Rle_trans; [apply Rabs_triang|].
    specialize (IH ltac:(intros; apply H; right; auto)). rewrite Rmult_plus_distr_r, Rmult_1_l, Rplus_comm. apply Rplus_le_compat; [exact IH|].
    destruct (H i ltac:(left; auto)) as [A1 A2]. rewrite Rabs_mult, (Rabs_right (wt d p i)) by (left; apply wt_pos). rewrite Rmult_comm.
    apply Rmult_le_compat; [left; apply wt_pos|apply Rabs_pos| |exact A2].
    rewrite (share_le d p i i0) by lra. rewrite Rmult_comm. apply Rmult_le_compat_r; [left; apply wt_pos|]. unfold q. apply rpower_base_le; auto.
    - apply Rdiv_lt_0_compat; lra.
    - unfold Rdiv. apply Rmult_le_compat_l; [lra|]. apply Rinv_le; lra. }
  unfold us in E. cbn [map] in E. change (rsum (?x :: ?y)) with (x + rsum y) in E. rewrite (Rminus_diag_eq (rget z i0)), Rmult_0_l, Rplus_0_l in E by auto.
  apply (Rmult_le_reg_r WS); auto. rewrite <- (Rabs_right WS) at 1 by lra. rewrite <- Rabs_mult, E.
  eapply Rle_trans; [exact B|].
  replace (INR (length u) * q * D * WS) with (INR (length u) * (q * WS * D)) by ring. apply Rmult_le_compat_l; [apply pos_INR|].
  apply Rmult_le_compat_r; auto. apply Rmult_le_compat_l; lra.
Qed.

(** ** the API level *)
Local Open Scope nat_scope.
Local Notation call query t qs z k p ub := (snd (tree_call XRm query t (map ofP qs) (ofR z) k zero (XFin p : XR) (ofU ub))).
Local Notation pt j qs := (get (0%R, 0%R) qs j).

Lemma power_zero query (X qs : list rpt) k ub t : query_ok query -> new_tree (map ofP X) = Ok t -> qs <> [] -> 2 <= k ->
  forall j, j < length qs -> (forall i, i < length X -> (1 / 10000000000 <= dist_to X (pt j qs) i)%R) ->
  exists used, is_nearest (dist_to X (pt j qs)) (length X) k ub used /\
  forall z v, length z = length X -> call query t qs z k 0%R ub = Ok v ->
  (used = [] -> get (n_nan : XR) v j = (XNaN : XR)) /\
  (used <> [] -> get (n_nan : XR) v j = (XFin (rmean (map (rget z) used)) : XR)).
Proof.
  intros Q HT Hq Hk j Hj Hd. destruct (tree_call_used query X qs k ub t Q HT Hq Hk j Hj) as (used & N & U). exists used. split; auto.
  intros z v HZ HV. destruct (U z 0%R v HZ HV) as [_ I]. split; intros HU; [subst; exact I|]. destruct used as [|i0 u]; [congruence|].
  assert (R : forall i, In i (i0 :: u) -> i < length X) by (intros i Hi; apply (nn_range _ _ _ _ _ N i Hi)).
  apply idw_zero with (d := dist_to X (pt j qs)); auto.
  - apply Hd, R. left; auto.
  - intros i Hi. specialize (Hd i (R i Hi)). lra.
Qed.

Lemma station_influence query (X qs : list rpt) k ub t : query_ok query -> new_tree (map ofP X) = Ok t -> qs <> [] -> 2 <= k ->
  forall j, j < length qs -> (forall i, i < length X -> (1 / 10000000000 <= dist_to X (pt j qs) i)%R) ->
  forall i m (p : R) z z' v v', i < length X -> m < length X -> in_range (dist_to X (pt j qs)) ub m -> (0 <= p)%R ->
  length z = length X -> length z' = length X -> (forall h, h < length X -> h <> i -> rget z' h = rget z h) ->
  call query t qs z k p ub = Ok v -> call query t qs z' k p ub = Ok v' ->
  exists r r', get (n_nan : XR) v j = (XFin r : XR) /\ get (n_nan : XR) v' j = (XFin r' : XR) /\
  (Rabs (r' - r) <= Rabs (rget z' i - rget z i) * Rpower (dist_to X (pt j qs) m / dist_to X (pt j qs) i) p)%R.
Proof.
  intros Q HT Hq Hk j Hj Hd i m p z z' v v' Hi Hm Rm Hp HZ HZ' HE HV HV'.
  destruct (tree_call_used query X qs k ub t Q HT Hq Hk j Hj) as (used & N & U).
  destruct (U z p v HZ HV) as [_ I]. destruct (U z' p v' HZ' HV') as [_ I']. set (d := dist_to X (pt j qs)) in *.
  assert (P : forall h, h < length X -> (0 < d h)%R) by (intros h Hh; specialize (Hd h Hh); lra).
  assert (RU : forall h, In h used -> h < length X) by (intros h Hh; apply (nn_range _ _ _ _ _ N h Hh)).
  destruct used as [|i0 u].
  { exfalso. destruct (nn_rest _ _ _ _ _ N m Hm ltac:(intros []) Rm) as [E _]. cbn in E. lia. }
  assert (Hd0 : (1 / 10000000000 <= d i0)%R) by (apply Hd, RU; left; auto).
  destruct (in_dec Nat.eq_dec i (i0 :: u)) as [Ii|Ni].
  - destruct (in_dec Nat.eq_dec m (i0 :: u)) as [Im|Nm].
    + apply (influence d z z' p i0 u); auto. exact (nn_distinct _ _ _ _ _ N).
    + destruct (influence d z z' p i0 u _ _ i i I I' (nn_distinct _ _ _ _ _ N) Hd0) as (r & r' & E & E' & B); auto.
      exists r, r'. do 2 (split; [assumption|]). eapply Rle_trans; [exact B|]. apply Rmult_le_compat_l; [apply Rabs_pos|].
      destruct (nn_rest _ _ _ _ _ N m Hm Nm Rm) as [_ F]. specialize (F i Ii). pose proof (P i Hi). apply rpower_base_le; auto.
      * apply Rdiv_lt_0_compat; auto.
      * unfold Rdiv. apply Rmult_le_compat_r; [left; apply Rinv_0_lt_compat; auto|auto].
  - cbn [is_idw] in I, I'. destruct (Rlt_dec (d i0) (1 / 10000000000)) as [|_]; [lra|]. destruct I as (r & E & S), I' as (r' & E' & S').
    exists r, r'. do 2 (split; [assumption|]). assert (r' = r).
    { pose proof (weights_pos d p (i0 :: u) ltac:(discriminate)) as W. apply Rmult_eq_reg_r with (rsum (map (fun i => / Rpower (d i) p)%R (i0 :: u))); [|lra].
      rewrite S, S'. apply rsum_map_ext. intros h Hh. rewrite HE; auto. intros ->. auto. }
    subst r'. rewrite Rminus_diag_eq, Rabs_R0 by auto. apply Rmult_le_pos; [apply Rabs_pos|]. left. unfold Rpower. apply exp_pos.
Qed.

Lemma used_head d n k ub used i0 : is_nearest d n k ub used -> 2 <= k -> i0 < n -> in_range d ub i0 -> (forall i, i < n -> i <> i0 -> (d i0 < d i)%R) ->
  exists u, used = i0 :: u /\ (forall i, In i u -> i < n /\ i <> i0) /\ length u <= k - 1.
Proof.
  intros N Hk Hi0 R0 Hmin.
  assert (I : In i0 used).
  { destruct (in_dec Nat.eq_dec i0 used) as [|NI]; auto. exfalso. destruct (nn_rest _ _ _ _ _ N i0 Hi0 NI R0) as [E F].
    destruct used as [|h u]; [cbn in E; lia|]. specialize (F h (or_introl eq_refl)). destruct (nn_range _ _ _ _ _ N h (or_introl eq_refl)) as [Hh _].
    destruct (Nat.eq_dec h i0) as [->|NE]; [apply NI; left; auto|]. specialize (Hmin h Hh NE). lra. }
  destruct used as [|h u]; [destruct I|]. destruct (Nat.eq_dec h i0) as [->|NE].
  - exists u. split; auto. pose proof (nn_distinct _ _ _ _ _ N) as ND. inversion ND as [|? ? NI _]; subst. pose proof (nn_count _ _ _ _ _ N) as C. cbn in C. split; [|lia].
    intros i Hi. split; [apply (nn_range _ _ _ _ _ N i); right; auto|]. intros ->. auto.
  - exfalso. apply In_get with (d := 0) in I. destruct I as (b & Hb & E). pose proof (nn_sorted _ _ _ _ _ N 0 b ltac:(lia) Hb) as S.
    rewrite E in S. change (get 0 (h :: u) 0) with h in S. destruct (nn_range _ _ _ _ _ N h (or_introl eq_refl)) as [Hh _]. specialize (Hmin h Hh NE). lra.
Qed.

Lemma nearest_bound query (X qs : list rpt) k ub t : query_ok query -> new_tree (map ofP X) = Ok t -> qs <> [] -> 2 <= k ->
  forall j i0 (d1 : R), j < length qs -> i0 < length X -> in_range (dist_to X (pt j qs)) ub i0 ->
  (1 / 10000000000 <= dist_to X (pt j qs) i0 < d1)%R -> (forall i, i < length X -> i <> i0 -> (d1 <= dist_to X (pt j qs) i)%R) ->
  forall (p D : R) z v, (0 <= p)%R -> length z = length X -> (forall i, i < length X -> (Rabs (rget z i - rget z i0) <= D)%R) ->
  call query t qs z k p ub = Ok v ->
  exists r, get (n_nan : XR) v j = (XFin r : XR) /\
  (Rabs (r - rget z i0) <= INR (k - 1) * Rpower (dist_to X (pt j qs) i0 / d1) p * D)%R.
Proof.
  intros Q HT Hq Hk j i0 d1 Hj Hi0 R0 H0 H1 p D z v Hp HZ HD HV.
  destruct (tree_call_used query X qs k ub t Q HT Hq Hk j Hj) as (used & N & U). destruct (U z p v HZ HV) as [_ I]. set (d := dist_to X (pt j qs)) in *.
  destruct (used_head _ _ _ _ _ i0 N Hk Hi0 R0) as (u & -> & HU & LU); [intros i Hi NE; specialize (H1 i Hi NE); lra|].
  assert (D0 : (0 <= D)%R) by (specialize (HD i0 Hi0); pose proof (Rabs_pos (rget z i0 - rget z i0)); lra).
  destruct (near_nearest d z p i0 u _ d1 D I ltac:(lra) ltac:(lra) Hp D0) as (r & E & B).
  { intros i Hi. destruct (HU i Hi). split; auto. }
  exists r. split; auto. eapply Rle_trans; [exact B|]. apply Rmult_le_compat_r; auto. apply Rmult_le_compat_r; [left; unfold Rpower; apply exp_pos|]. apply le_INR; auto.
Qed.

Lemma range_exists z c : exists D, (0 <= D)%R /\ forall i, i < length z -> (Rabs (rget z i - c) <= D)%R.
Proof.
  induction z as [|x z (D & D0 & H)]; [exists 0%R; split; [lra|cbn; intros; lia]|]. exists (D + Rabs (x - c))%R. pose proof (Rabs_pos (x - c)). split; [lra|].
  intros [|i] Hi; [cbn; lra|]. cbn in Hi. specialize (H i ltac:(lia)). change (rget (x :: z) (S i)) with (rget z i). lra.
Qed.

Lemma nearest_limit query (X qs : list rpt) k ub t : query_ok query -> new_tree (map ofP X) = Ok t -> qs <> [] -> 2 <= k ->
  forall j i0, j < length qs -> i0 < length X -> in_range (dist_to X (pt j qs)) ub i0 ->
  (1 / 10000000000 <= dist_to X (pt j qs) i0)%R -> (forall i, i < length X -> i <> i0 -> (dist_to X (pt j qs) i0 < dist_to X (pt j qs) i)%R) ->
  forall z eps, length z = length X -> (0 < eps)%R -> exists P, forall p v, (P <= p)%R -> call query t qs z k p ub = Ok v ->
  exists r, get (n_nan : XR) v j = (XFin r : XR) /\ (Rabs (r - rget z i0) <= eps)%R.
Proof.
  intros Q HT Hq Hk j i0 Hj Hi0 R0 H0 H1 z eps HZ He. set (d := dist_to X (pt j qs)) in *.
  destruct (range_exists z (rget z i0)) as (D & D0 & HD). rewrite HZ in HD.
  assert (G : forall n, exists d1, (d i0 < d1)%R /\ forall i, i < n -> i < length X -> i <> i0 -> (d1 <= d i)%R).
  { induction n as [|n (d1 & A & B)]; [exists (d i0 + 1)%R; split; [lra|intros; lia]|].
    destruct (le_lt_dec (length X) n) as [L|L]; [exists d1; split; auto; intros; apply B; auto; lia|].
    destruct (Nat.eq_dec n i0) as [->|NE]; [exists d1; split; auto; intros; apply B; auto; lia|].
    exists (Rmin d1 (d n)). split; [apply Rmin_glb_lt; auto|]. intros i Hi HX Hn. destruct (Nat.eq_dec i n) as [->|]; [apply Rmin_r|].
    eapply Rle_trans; [apply Rmin_l|]. apply B; auto. lia. }
  destruct (G (length X)) as (d1 & A & B). set (l := ln (d i0 / d1)).
  assert (Hl : (l < 0)%R). { unfold l. rewrite <- ln_1. apply ln_increasing; [apply Rdiv_lt_0_compat; lra|]. apply (Rmult_lt_reg_r d1); [lra|]. unfold Rdiv. rewrite Rmult_assoc, Rinv_l; lra. }
  set (K := (INR (k - 1) * D + 1)%R). assert (HK : (0 < K)%R) by (unfold K; pose proof (Rmult_le_pos _ _ (pos_INR (k - 1)) D0); lra).
  exists (Rmax 0 (ln (eps / K) / l))%R. intros p v Hp HV.
  assert (P0 : (0 <= p)%R) by (eapply Rle_trans; [apply Rmax_l|exact Hp]).
  assert (P1 : (ln (eps / K) / l <= p)%R) by (eapply Rle_trans; [apply Rmax_r|exact Hp]).
  destruct (nearest_bound query X qs k ub t Q HT Hq Hk j i0 d1 Hj Hi0 R0 ltac:(fold d; lra) ltac:(intros; apply B; auto) p D z v P0 HZ HD HV) as (r & E & BR).
  exists r. split; auto. eapply Rle_trans; [exact BR|]. fold d.
  assert (PW : (Rpower (d i0 / d1) p <= eps / K)%R).
  { unfold Rpower. fold l. rewrite <- (exp_ln (eps / K)) by (apply Rdiv_lt_0_compat; auto).
    assert (M : (p * l <= ln (eps / K))%R).
    { apply (Rmult_le_compat_neg_l l) in P1; [|lra]. replace (l * (ln (eps / K) / l))%R with (ln (eps / K)) in P1 by (field; lra). lra. }
    destruct M as [M|M]; [left; apply exp_increasing; auto|rewrite M; lra]. }
  replace (INR (k - 1) * Rpower (d i0 / d1) p * D)%R with ((INR (k - 1) * D) * Rpower (d i0 / d1) p)%R by ring.
  apply Rle_trans with (K * (eps / K))%R; [|right; field; lra]. apply Rmult_le_compat; [apply Rmult_le_pos; auto; apply pos_INR|left; unfold Rpower; apply exp_pos|unfold K; lra|exact PW].
Qed.

(** ** jumps *)
Lemma two_of_three d used a b c : is_nearest d 3 2 None used -> [a; b; c] = [0; 1; 2] \/ [a; b; c] = [0; 2; 1] -> (d a < d b)%R -> (d b < d c)%R -> used = [a; b].
Proof.
  intros N HP L1 L2.
  assert (H3 : a < 3 /\ b < 3 /\ c < 3 /\ a <> b /\ a <> c /\ b <> c /\ forall i, i < 3 -> i = a \/ i = b \/ i = c).
  { destruct HP as [HP|HP]; injection HP as -> -> ->; repeat split; lia. }
  destruct H3 as (Ha & Hb & Hc & nab & nac & nbc & C3). pose proof (nn_distinct _ _ _ _ _ N) as ND. pose proof (nn_count _ _ _ _ _ N) as CN.
  assert (IA : forall h, In h used -> h < 3) by (intros h Hh; apply (nn_range _ _ _ _ _ N h Hh)).
  assert (A : In a used).
  { destruct (in_dec Nat.eq_dec a used) as [|NI]; auto. exfalso. destruct (nn_rest _ _ _ _ _ N a Ha NI I) as [E F].
    destruct used as [|h u]; [discriminate|]. specialize (F h (or_introl eq_refl)). destruct (C3 h (IA h (or_introl eq_refl))) as [->|[->| ->]]; [apply NI; left; auto|lra|lra]. }
  assert (B : In b used).
  { destruct (in_dec Nat.eq_dec b used) as [|NI]; auto. exfalso. destruct (nn_rest _ _ _ _ _ N b Hb NI I) as [E F].
    destruct used as [|h [|h2 [|]]]; try discriminate. inversion ND as [|? ? N1 _]; subst.
    assert (X : forall x, In x [h; h2] -> x = a).
    { intros x Hx. specialize (F x Hx). destruct (C3 x (IA x Hx)) as [->|[->| ->]]; auto; [exfalso; auto|lra]. }
    apply N1. rewrite (X h), (X h2) by (cbn; auto). left; auto. }
  destruct used as [|h [|h2 [|h3 u]]]; cbn in CN; try lia; [destruct A|destruct A as [<-|[]], B as [E|[]]; congruence|].
  pose proof (nn_sorted _ _ _ _ _ N 0 1 ltac:(lia) ltac:(cbn; lia)) as S. unfold get in S. cbn [nth] in S.
  destruct A as [<-|[<-|[]]], B as [<-|[<-|[]]]; try congruence; auto. lra.
Qed.

Lemma jump query t v (s : R) : query_ok query -> new_tree (map ofP [(0%R, 1%R); (-4, 0); (4, 0)]%R) = Ok t -> (0 < s < 1)%R ->
  call query t [(- s, 0); (s, 0)]%R [0; 0; 17]%R 2 2%R None = Ok v ->
  get (n_nan : XR) v 0 = (XFin 0 : XR) /\ exists r, get (n_nan : XR) v 1 = (XFin r : XR) /\ (1 <= r)%R.
Proof.
  intros Q HT Hs HV. set (X := [(0%R, 1%R); (-4, 0); (4, 0)]%R) in *. set (qs := [(- s, 0); (s, 0)]%R) in *.
  assert (DA : forall x y : R * R, forall a, (0 <= a)%R -> ((fst x - fst y) * (fst x - fst y) + (snd x - snd y) * (snd x - snd y) = a * a)%R -> rdist x y = a).
  { intros x y a Ha E. unfold rdist. rewrite E. apply sqrt_square; auto. }
  set (h := sqrt (1 + s * s)). assert (HH : (h * h = 1 + s * s)%R) by (apply sqrt_sqrt; nra).
  assert (H0 : (0 <= h)%R) by apply sqrt_pos. assert (H1 : (1 < h)%R) by nra. assert (H2 : (h < 2)%R) by nra.
  assert (D : forall i, i < 3 -> dist_to X (pt 0 qs) i = get 0%R [h; 4 - s; 4 + s]%R i /\ dist_to X (pt 1 qs) i = get 0%R [h; 4 + s; 4 - s]%R i).
  { intros [|[|[|i]]] Hi; try lia; split; unfold dist_to, get; cbn [nth X qs]; apply DA; cbn [fst snd]; lra. }
  destruct (tree_call_used query X qs 2 None t Q HT ltac:(discriminate) ltac:(lia) 0 ltac:(cbn; lia)) as (u0 & N0 & U0).
  destruct (tree_call_used query X qs 2 None t Q HT ltac:(discriminate) ltac:(lia) 1 ltac:(cbn; lia)) as (u1 & N1 & U1).
  destruct (U0 [0; 0; 17]%R 2%R v eq_refl HV) as [_ I0]. destruct (U1 [0; 0; 17]%R 2%R v eq_refl HV) as [_ I1].
  assert (E0 : u0 = [0; 1]).
  { apply (two_of_three (dist_to X (pt 0 qs)) u0 0 1 2 N0); auto.
    - rewrite (proj1 (D 0 ltac:(lia))), (proj1 (D 1 ltac:(lia))). unfold get. cbn [nth]. lra.
    - rewrite (proj1 (D 1 ltac:(lia))), (proj1 (D 2 ltac:(lia))). unfold get. cbn [nth]. lra. }
  assert (E1 : u1 = [0; 2]).
  { apply (two_of_three (dist_to X (pt 1 qs)) u1 0 2 1 N1); auto.
    - rewrite (proj2 (D 0 ltac:(lia))), (proj2 (D 2 ltac:(lia))). unfold get. cbn [nth]. lra.
    - rewrite (proj2 (D 1 ltac:(lia))), (proj2 (D 2 ltac:(lia))). unfold get. cbn [nth]. lra. }
  subst u0 u1. split.
  - apply (idw_const _ _ _ _ _ 0%R) in I0; [exact I0| |discriminate]. intros i [<-|[<-|[]]]; reflexivity.
  - cbn [is_idw] in I1. rewrite (proj2 (D 0 ltac:(lia))) in I1. change (get 0%R [h; 4 + s; 4 - s]%R 0) with h in I1.
    destruct (Rlt_dec h (1 / 10000000000)) as [|_]; [lra|]. destruct I1 as (r & E & S). exists r. split; [exact E|].
    cbn [map] in S. rewrite (proj2 (D 0 ltac:(lia))), (proj2 (D 2 ltac:(lia))) in S. unfold get in S. cbn [nth] in S.
    change (rget [0; 0; 17]%R 0) with 0%R in S. change (rget [0; 0; 17]%R 2) with 17%R in S. unfold rsum in S. cbn [fold_right] in S.
    rewrite !(Rpower_pow 2) in S by lra.
    set (g := (4 - s)%R) in *. assert (Hg : (3 < g < 4)%R) by (unfold g; lra).
    assert (S2 : (r * (g * g + h * h) = 17 * (h * h))%R).
    { assert (S3 : (r * (/ (h * h) + / (g * g)) = 17 * / (g * g))%R).
      { replace (h ^ 2)%R with (h * h)%R in S by ring. replace (g ^ 2)%R with (g * g)%R in S by ring. lra. }
      apply (f_equal (fun x => x * (h * h) * (g * g))%R) in S3. 
      replace (r * (/ (h * h) + / (g * g)) * (h * h) * (g * g))%R with (r * (g * g + h * h))%R in S3 by (field; lra).
      replace (17 * / (g * g) * (h * h) * (g * g))%R with (17 * (h * h))%R in S3 by (field; lra). exact S3. }
    assert (G16 : (g * g <= 16 * (h * h))%R) by nra. assert (0 < g * g + h * h)%R by nra.
    apply (Rmult_le_reg_r (g * g + h * h)); auto. rewrite S2. lra.
Qed.
