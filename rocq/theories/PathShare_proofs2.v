(** The series reported for a link. *)
From Coq Require Import List ZArith Bool Reals Lra Lia.
From Flocq Require Import Core.
From Verif Require Import Base Num NumList RealSpec RealStat SpecGram_proofs5 LinAlg PosDef Validator_model Validator_spec Validator_proofs Validator_props PathShare_spec PathShare_proofs.
Import ListNotations.
Local Open Scope R_scope.

Definition cell_share ex ey xa ya xb yb (i j : nat) : R := box xa ya xb yb (rget ex j) (rget ex (j + 1)) (rget ey i) (rget ey (i + 1)).
Lemma cell_share_ok ex ey xa ya xb yb i j : share (in_pixel ex ey xa ya xb yb i j) (cell_share ex ey xa ya xb yb i j).
Proof. apply box_share. Qed.
Lemma cell_nonneg ex ey xa ya xb yb i j : 0 <= cell_share ex ey xa ya xb yb i j.
Proof. apply ivl_nonneg. Qed.
Lemma weight_is ex ey xa ya xb yb w i j : path_weights ex ey xa ya xb yb w -> (i < pixels ey)%nat -> (j < pixels ex)%nat -> at2 w i j = XFin (cell_share ex ey xa ya xb yb i j).
Proof. intros [_ H] Hi Hj. destruct (H i j Hi Hj) as (s & E & S). rewrite E. f_equal. exact (share_unique _ _ _ S (cell_share_ok _ _ _ _ _ _ _ _)). Qed.

Lemma weights_exist ex ey xa ya xb yb : exists w, path_weights ex ey xa ya xb yb w.
Proof.
  exists (map (fun i => map (fun j => (XFin (cell_share ex ey xa ya xb yb i j) : XR)) (seq 0 (pixels ex))) (seq 0 (pixels ey))). split.
  - split; [rewrite map_length, seq_length; reflexivity|]. intros i Hi. rewrite (get_map_seq _ []) by exact Hi. rewrite map_length, seq_length. reflexivity.
  - intros i j Hi Hj. exists (cell_share ex ey xa ya xb yb i j). split; [|apply cell_share_ok]. unfold at2. rewrite (get_map_seq _ []) by exact Hi. unfold nget. rewrite get_map_seq by exact Hj. reflexivity.
Qed.

Lemma reversed_weights ex ey xa ya xb yb w : path_weights ex ey xa ya xb yb w -> path_weights ex ey xb yb xa ya w.
Proof.
  intros [M H]. split; [exact M|]. intros i j Hi Hj. destruct (H i j Hi Hj) as (s & E & S). exists s. split; [exact E|].
  assert (R : forall t, in_pixel ex ey xb yb xa ya i j t <-> in_pixel ex ey xa ya xb yb i j (1 - t)).
  { intros t. unfold in_pixel, along. replace (xb + t * (xa - xb)) with (xa + (1 - t) * (xb - xa)) by ring. replace (yb + t * (ya - yb)) with (ya + (1 - t) * (yb - ya)) by ring. tauto. }
  destruct S as [(a & b & A1 & A2 & -> & X)|(-> & N)].
  - left. exists (1 - b), (1 - a). split; [lra|]. split; [lra|]. split; [ring|]. intros t Ht. rewrite R, X by lra. split; lra.
  - right. split; [reflexivity|]. intros t Ht. rewrite R. apply N. lra.
Qed.

(** ** sums *)
Definition amount (ex ey : list R) xa ya xb yb (f : nat -> nat -> option R) : R :=
  tot (fun i => tot (fun j => match f i j with Some v => v * cell_share ex ey xa ya xb yb i j | None => 0 end) (pixels ex)) (pixels ey).
Lemma rsum_map_tot (f : nat -> R) n : rsum (map f (seq 0 n)) = tot f n.
Proof.
  rewrite <- tot_rsum, map_length, seq_length. apply tot_ext. intros i Hi. unfold rget. rewrite get_map_seq by exact Hi. reflexivity.
Qed.
Lemma rsum_concat_tot (f : nat -> nat -> R) n m : rsum (concat (map (fun i => map (f i) (seq 0 m)) (seq 0 n))) = tot (fun i => tot (f i) m) n.
Proof.
  rewrite <- (rsum_map_tot (fun i => tot (f i) m) n). induction (seq 0 n) as [|i l IH]; [reflexivity|]. cbn [map concat]. rewrite rsum_app, IH, rsum_map_tot. reflexivity.
Qed.
Lemma whole_sum_R ex ey xa ya xb yb w g f : path_weights ex ey xa ya xb yb w ->
  (forall i j, (i < pixels ey)%nat -> (j < pixels ex)%nat -> at2 g i j = match f i j with Some v => XFin v | None => XNaN end) ->
  whole_sum (O := XR) (pixels ey) (pixels ex) g w = XFin (amount ex ey xa ya xb yb f).
Proof.
  intros PW G. unfold whole_sum. rewrite (map_ext_in _ (fun i => ofR (map (fun j => match f i j with Some v => v * cell_share ex ey xa ya xb yb i j | None => 0 end) (seq 0 (pixels ex))))).
  - transitivity (n_sum (ofR (concat (map (fun i => map (fun j => match f i j with Some v => v * cell_share ex ey xa ya xb yb i j | None => 0 end) (seq 0 (pixels ex))) (seq 0 (pixels ey)))))).
    + f_equal. unfold ofR. rewrite concat_map, map_map. reflexivity.
    + rewrite n_sum_ofR, rsum_concat_tot. reflexivity.
  - intros i Hi. apply in_seq in Hi. unfold ofR. rewrite map_map. apply map_ext_in. intros j Hj. apply in_seq in Hj. unfold contribution.
    rewrite (weight_is _ _ _ _ _ _ _ i j PW), (G i j) by lia. destruct (f i j); reflexivity.
Qed.

Section Call.
Variables (ex ey : list R) (xa ya xb yb : R) (w : list (list XR)) (times : list Z) (values : list (list (list XR))) (field : nat -> nat -> nat -> option R).
Hypotheses (AX : ascending_edges ex) (AY : ascending_edges ey) (PW : path_weights ex ey xa ya xb yb w) (IM : images ey ex times values field).

Lemma series_is : (exists i j, (i < pixels ey)%nat /\ (j < pixels ex)%nat /\ 0 < cell_share ex ey xa ya xb yb i j) ->
  reports w times values (fun k => amount ex ey xa ya xb yb (field k)).
Proof using PW IM.
  intros (i0 & j0 & Hi & Hj & Pos) t1 i1 i2 t2. destruct IM as [LV G].
  destruct (C76_bounding_box_is_enough XR XRsem (pixels ey) (pixels ex) w i1 i2 times values t1 t2 (proj1 PW) LV) as (r & E & F).
  - intros k Hk. apply (G k Hk).
  - intros i j Hi' Hj'. rewrite (weight_is _ _ _ _ _ _ _ i j PW Hi' Hj'). pose proof (cell_nonneg ex ey xa ya xb yb i j). apply Rlt_bool_false; cbn; lra.
  - exists i0, j0. split; [exact Hi|]. split; [exact Hj|]. rewrite (weight_is _ _ _ _ _ _ _ i0 j0 PW Hi Hj). apply Rlt_bool_true; cbn; lra.
  - rewrite E. f_equal. cut (forall l, (forall k, In k l -> (k < length times)%nat) -> forall r, Forall2 (fun t p => fst p = get 0%Z times t /\ val XRsem (snd p) = val XRsem (whole_sum (pixels ey) (pixels ex) (get [] values t) w)) l r ->
      r = map (fun k => (get 0%Z times k, (XFin (amount ex ey xa ya xb yb (field k)) : XR))) l).
    { intros X. apply (X _); [|exact F]. intros k Hk. apply filter_In in Hk. destruct Hk as [Hk _]. apply in_seq in Hk. lia. }
    clear F r E. intros l HL r F. induction F as [|k p l r [Ef Es] F IH]; [reflexivity|]. cbn [map]. rewrite IH by (intros; apply HL; right; assumption). f_equal.
    destruct p as [tt v]. cbn [fst snd] in *. subst tt. f_equal. change (v = XFin (amount ex ey xa ya xb yb (field k))).
    change (v = whole_sum (O := XR) (pixels ey) (pixels ex) (get [] values k) w) in Es. rewrite Es. apply whole_sum_R; [exact PW|]. apply IM. apply HL. left. reflexivity.
Qed.

(** the share of the path inside of the grid *)
Definition grid_share : R := box xa ya xb yb (rget ex 0) (rget ex (pixels ex)) (rget ey 0) (rget ey (pixels ey)).
Lemma grid_share_ok : share (in_grid ex ey xa ya xb yb) grid_share.
Proof using. apply box_share. Qed.

Lemma cell_le_grid i j : (i < pixels ey)%nat -> (j < pixels ex)%nat -> cell_share ex ey xa ya xb yb i j <= grid_share.
Proof using AX AY.
  intros Hi Hj. pose proof (cell_share_ok ex ey xa ya xb yb i j) as C. pose proof grid_share_ok as G. set (c := cell_share _ _ _ _ _ _ i j) in *. set (g := grid_share) in *.
  assert (X : forall t, in_pixel ex ey xa ya xb yb i j t -> in_grid ex ey xa ya xb yb t).
  { unfold in_pixel, in_grid. intros t [X Y]. unfold pixels in *. pose proof (edges_mono ex AX 0 j ltac:(lia) ltac:(lia)). pose proof (edges_mono ex AX (j + 1) (length ex - 1) ltac:(lia) ltac:(lia)).
    pose proof (edges_mono ey AY 0 i ltac:(lia) ltac:(lia)). pose proof (edges_mono ey AY (i + 1) (length ey - 1) ltac:(lia) ltac:(lia)). lra. }
  destruct C as [(a & b & A1 & A2 & -> & E)|(-> & N)]; [|apply (share_range _ _ G)].
  assert (Ia : in_grid ex ey xa ya xb yb a) by (apply X, E; lra). assert (Ib : in_grid ex ey xa ya xb yb b) by (apply X, E; lra).
  destruct G as [(a' & b' & A1' & A2' & -> & E')|(-> & N)]; [apply E' in Ia; [|lra]; apply E' in Ib; [|lra]; lra|destruct (N a ltac:(lra) Ia)].
Qed.

Lemma nothing_reported : grid_share = 0 -> reports_nothing w times values.
Proof using AX AY PW.
  intros Z t1 i1 i2 t2. apply C76_no_positive_weight; [discriminate|destruct i2; discriminate|].
  intros i j Hi Hj. destruct (proj1 PW) as [LW LR]. rewrite LW in Hi. rewrite (LR i Hi) in Hj. rewrite (weight_is _ _ _ _ _ _ _ i j PW Hi Hj).
  pose proof (cell_le_grid i j Hi Hj). pose proof (cell_nonneg ex ey xa ya xb yb i j). apply Rlt_bool_false; cbn; lra.
Qed.

Lemma tot_pos_some (f : nat -> R) n : 0 < tot f n -> exists i, (i < n)%nat /\ 0 < f i.
Proof using.
  induction n as [|n IH]; [cbn; lra|]. rewrite tot_S. intros H. destruct (Rlt_dec 0 (f n)) as [P|P]; [exists n; auto with arith|].
  destruct IH as (i & Hi & Q); [lra|]. exists i. auto with arith.
Qed.
Lemma some_cell : ~ on_inner_edge ex xa xb -> ~ on_inner_edge ey ya yb -> 0 < grid_share ->
  exists i j, (i < pixels ey)%nat /\ (j < pixels ex)%nat /\ 0 < cell_share ex ey xa ya xb yb i j.
Proof using AX AY.
  intros NX NY P. unfold grid_share in P. rewrite <- (grid_sum ex ey xa ya xb yb AX AY NX NY) in P. apply tot_pos_some in P. destruct P as (i & Hi & P).
  apply tot_pos_some in P. destruct P as (j & Hj & P). exists i, j. auto.
Qed.
Lemma cells_sum : ~ on_inner_edge ex xa xb -> ~ on_inner_edge ey ya yb -> tot (fun i => tot (fun j => cell_share ex ey xa ya xb yb i j) (pixels ex)) (pixels ey) = grid_share.
Proof using AX AY. exact (grid_sum ex ey xa ya xb yb AX AY). Qed.
End Call.
