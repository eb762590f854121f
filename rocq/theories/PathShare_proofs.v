(** Shares of a path in the pixels of a grid. *)
From Coq Require Import List ZArith Bool Reals Lra Lia.
From Verif Require Import Base Num RealSpec SpecGram_proofs5 LinAlg PosDef Validator_model Validator_spec PathShare_spec.
Import ListNotations.
Local Open Scope R_scope.

(** ** intervals *)
Definition ivl (a b : R) : R := Rmax 0 (b - a).
Lemma ivl_nonneg a b : 0 <= ivl a b.
Proof. apply Rmax_l. Qed.
Lemma share_ivl P s a b : share P s -> 0 <= a -> b <= 1 -> (forall t, 0 <= t <= 1 -> (P t <-> a <= t <= b)) -> s = ivl a b.
Proof.
  intros H Ha Hb E. unfold ivl, Rmax. destruct H as [(a' & b' & A1 & A2 & -> & E')|(-> & N)].
  - assert (X : a <= a' <= b) by (apply E; [lra|]; apply E'; lra). assert (Y : a <= b' <= b) by (apply E; [lra|]; apply E'; lra).
    assert (Z : a' <= a <= b') by (apply E'; [lra|]; apply E; lra). assert (W : a' <= b <= b') by (apply E'; [lra|]; apply E; lra). destruct (Rle_dec 0 (b - a)); lra.
  - destruct (Rle_dec 0 (b - a)); [|lra]. destruct (N a); [lra|]. apply E; lra.
Qed.
Lemma ivl_share P a b : 0 <= a -> b <= 1 -> (forall t, 0 <= t <= 1 -> (P t <-> a <= t <= b)) -> share P (ivl a b).
Proof.
  intros Ha Hb E. unfold ivl, Rmax. destruct (Rle_dec 0 (b - a)); [left; exists a, b; split; [lra|]; split; [lra|]; split; [lra|exact E]|].
  right. split; [reflexivity|]. intros t Ht HP. apply E in HP; lra.
Qed.
Lemma share_unique P s s' : share P s -> share P s' -> s = s'.
Proof.
  intros H [(a & b & A1 & A2 & -> & E)|(-> & N)].
  - rewrite (share_ivl P s a b H ltac:(lra) ltac:(lra) E). unfold ivl. apply Rmax_right. lra.
  - rewrite (share_ivl P s 1 0 H ltac:(lra) ltac:(lra)); [unfold ivl; apply Rmax_left; lra|]. intros t Ht. split; [intros X; destruct (N t Ht X)|lra].
Qed.
Lemma share_range P s : share P s -> 0 <= s <= 1.
Proof. intros [(a & b & A1 & A2 & -> & E)|(-> & N)]; lra. Qed.
Lemma share_ext P Q s : (forall t, 0 <= t <= 1 -> (P t <-> Q t)) -> share P s -> share Q s.
Proof.
  intros E [(a & b & A1 & A2 & H & X)|(H & N)].
  - left. exists a, b. repeat split; auto; try apply A1.
    + apply X; auto. apply E; auto.
    + apply X; auto. apply E; auto.
    + intros T. apply E; auto. apply X; auto.
  - right. split; auto. intros t Ht Q'. apply (N t Ht), E; auto.
Qed.

Definition clamp (p q s : R) : R := Rmax p (Rmin q s).
Lemma ivl_clamp p q s s' : p <= q -> s <= s' -> ivl (Rmax p s) (Rmin q s') = clamp p q s' - clamp p q s.
Proof. intros. unfold ivl, clamp, Rmax, Rmin. repeat destruct (Rle_dec _ _); lra. Qed.
Lemma ivl_empty p q s s' : q < p -> ivl (Rmax p s) (Rmin q s') = 0.
Proof. intros. unfold ivl, Rmax, Rmin. repeat destruct (Rle_dec _ _); lra. Qed.

(** ** one coordinate: the fractions at which it lies between two edges *)
Definition lower (a b lo hi : R) : R :=
  if Rlt_dec a b then (lo - a) / (b - a) else if Rlt_dec b a then (hi - a) / (b - a) else if Rle_dec lo a then if Rle_dec a hi then 0 else 1 else 1.
Definition upper (a b lo hi : R) : R :=
  if Rlt_dec a b then (hi - a) / (b - a) else if Rlt_dec b a then (lo - a) / (b - a) else if Rle_dec lo a then if Rle_dec a hi then 1 else 0 else 0.
Lemma le_pos x d t : 0 < d -> (x <= t * d <-> x / d <= t).
Proof.
  intros D. split; intros H.
  - apply (Rmult_le_reg_r d); [exact D|]. unfold Rdiv. rewrite Rmult_assoc, Rinv_l; lra.
  - apply (Rmult_le_compat_r d) in H; [|lra]. unfold Rdiv in H. rewrite Rmult_assoc, Rinv_l in H; lra.
Qed.
Lemma ge_pos x d t : 0 < d -> (t * d <= x <-> t <= x / d).
Proof.
  intros D. split; intros H.
  - apply (Rmult_le_reg_r d); [exact D|]. unfold Rdiv. rewrite Rmult_assoc, Rinv_l; lra.
  - apply (Rmult_le_compat_r d) in H; [|lra]. unfold Rdiv in H. rewrite Rmult_assoc, Rinv_l in H; lra.
Qed.
Lemma div_neg x d : x / d = (- x) / (- d).
Proof. destruct (Req_dec d 0) as [->|N]; [rewrite Ropp_0; unfold Rdiv; rewrite Rinv_0; ring|]. field. exact N. Qed.
Lemma between_iff a b lo hi t : 0 <= t <= 1 -> (lo <= along a b t <= hi <-> lower a b lo hi <= t <= upper a b lo hi).
Proof.
  intros Ht. unfold along, lower, upper. destruct (Rlt_dec a b) as [L|L].
  - rewrite <- (le_pos (lo - a) (b - a) t), <- (ge_pos (hi - a) (b - a) t) by lra. split; lra.
  - destruct (Rlt_dec b a) as [G|G].
    + rewrite (div_neg (hi - a)), (div_neg (lo - a)), <- le_pos, <- ge_pos by lra. split; lra.
    + assert (a = b) by lra. subst b. replace (a + t * (a - a)) with a by ring. destruct (Rle_dec lo a), (Rle_dec a hi); split; lra.
Qed.

(** ** adding up along one coordinate *)
Lemma quot_le a b u v : a < b -> u <= v -> (u - a) / (b - a) <= (v - a) / (b - a).
Proof. intros. unfold Rdiv. apply Rmult_le_compat_r; [left; apply Rinv_0_lt_compat|]; lra. Qed.
Lemma quot_ge a b u v : b < a -> u <= v -> (v - a) / (b - a) <= (u - a) / (b - a).
Proof. intros. rewrite (div_neg (v - a)), (div_neg (u - a)). unfold Rdiv. apply Rmult_le_compat_r; [left; apply Rinv_0_lt_compat|]; lra. Qed.

Section Coord.
Variables (e : list R) (a b : R).
Hypothesis A : ascending_edges e.
Lemma edges_mono i j : (i <= j)%nat -> (j < length e)%nat -> rget e i <= rget e j.
Proof using A.
  destruct A as [_ U]. induction 1 as [|j Hij IH]; intros Hj; [lra|]. specialize (IH ltac:(lia)). specialize (U j ltac:(lia)). replace (Datatypes.S j) with (j + 1)%nat by lia. lra.
Qed.
Lemma edges_strict i j : (i < j)%nat -> (j < length e)%nat -> rget e i < rget e j.
Proof using A. intros Hij Hj. pose proof (edges_mono (i + 1) j ltac:(lia) Hj). destruct A as [_ U]. specialize (U i ltac:(lia)). lra. Qed.
Lemma pixels_le j : (j < pixels e)%nat -> (j + 1 < length e)%nat.
Proof using. unfold pixels. lia. Qed.

Lemma find_cell n : (n < length e)%nat -> (0 < n)%nat -> rget e 0 <= a <= rget e n -> exists j, (j < n)%nat /\ rget e j <= a <= rget e (j + 1).
Proof using A.
  induction n as [|n IH]; intros Hn Hp H; [lia|]. destruct (Rle_dec (rget e n) a) as [L|L].
  - exists n. split; [lia|]. replace (n + 1)%nat with (Datatypes.S n) by lia. lra.
  - destruct n as [|n]; [lra|]. destruct (IH ltac:(lia) ltac:(lia) ltac:(lra)) as (j & Hj & X). exists j. split; [lia|exact X].
Qed.

(** the parts of [p, q] in the columns add up to the part in the whole range *)
Lemma columns_sum p q : ~ on_inner_edge e a b -> 0 <= p -> q <= 1 ->
  tot (fun j => ivl (Rmax p (lower a b (rget e j) (rget e (j + 1)))) (Rmin q (upper a b (rget e j) (rget e (j + 1))))) (pixels e) =
  ivl (Rmax p (lower a b (rget e 0) (rget e (pixels e)))) (Rmin q (upper a b (rget e 0) (rget e (pixels e)))).
Proof using A.
  intros NE Hp Hq. assert (L2 : (2 <= length e)%nat) by apply A.
  destruct (Rlt_dec q p) as [E|PQ].
  { rewrite (tot_ext _ (fun _ => 0)) by (intros; apply ivl_empty; exact E). rewrite tot_zero, ivl_empty by exact E. reflexivity. }
  assert (PQ' : p <= q) by lra. clear PQ. unfold lower, upper. destruct (Rlt_dec a b) as [L|L]; [|destruct (Rlt_dec b a) as [G|G]].
  - set (c := fun j => clamp p q ((rget e j - a) / (b - a))). rewrite (tot_ext _ (fun j => c (Datatypes.S j) - c j)).
    + rewrite tot_tele. unfold c. rewrite ivl_clamp; [reflexivity|exact PQ'|]. apply quot_le; [exact L|]. apply edges_mono; unfold pixels; lia.
    + intros j Hj. unfold c. replace (Datatypes.S j) with (j + 1)%nat by lia. apply ivl_clamp; [exact PQ'|]. apply quot_le; [exact L|]. apply edges_mono; unfold pixels in *; lia.
  - set (c := fun j => clamp p q ((rget e j - a) / (b - a))). rewrite (tot_ext _ (fun j => - (c (Datatypes.S j) - c j))).
    + rewrite (tot_ext _ (fun j => (-1) * (c (Datatypes.S j) - c j))) by (intros; ring). rewrite tot_scal, tot_tele. unfold c.
      rewrite ivl_clamp; [ring|exact PQ'|]. apply quot_ge; [exact G|]. apply edges_mono; unfold pixels; lia.
    + intros j Hj. unfold c. replace (Datatypes.S j) with (j + 1)%nat by lia. rewrite ivl_clamp; [ring|exact PQ'|]. apply quot_ge; [exact G|]. apply edges_mono; unfold pixels in *; lia.
  - assert (AB : a = b) by lra. set (m := pixels e) in *. assert (Hm : (0 < m < length e)%nat) by (unfold m, pixels; lia).
    set (cell := fun lo hi => ivl (Rmax p (if Rle_dec lo a then if Rle_dec a hi then 0 else 1 else 1)) (Rmin q (if Rle_dec lo a then if Rle_dec a hi then 1 else 0 else 0))).
    assert (C1 : forall lo hi, lo <= a <= hi -> cell lo hi = ivl p q).
    { intros lo hi X. unfold cell. destruct (Rle_dec lo a); [|lra]. destruct (Rle_dec a hi); [|lra]. rewrite Rmax_left, Rmin_left by lra. reflexivity. }
    assert (C0 : forall lo hi, ~ (lo <= a <= hi) -> cell lo hi = 0).
    { intros lo hi X. unfold cell, ivl, Rmax, Rmin. destruct (Rle_dec lo a); [destruct (Rle_dec a hi); [lra|]|]; repeat destruct (Rle_dec _ _); lra. }
    change (tot (fun j => cell (rget e j) (rget e (j + 1))) m = cell (rget e 0) (rget e m)).
    destruct (Rle_dec (rget e 0) a) as [Y1|Y1]; [destruct (Rle_dec a (rget e m)) as [Y2|Y2]|].
    + destruct (find_cell m ltac:(lia) ltac:(lia) (conj Y1 Y2)) as (j & Hj & HC).
      rewrite (tot_single _ j m Hj), (C1 _ _ HC), (C1 _ _ (conj Y1 Y2)); [reflexivity|]. intros k Hk Nk. apply C0. intros HK. apply NE. split; [exact AB|].
      destruct (Nat.lt_ge_cases k j) as [X|X].
      * exists j. split; [lia|]. pose proof (edges_mono (k + 1) j ltac:(lia) ltac:(lia)). lra.
      * exists k. split; [lia|]. pose proof (edges_mono (j + 1) k ltac:(lia) ltac:(lia)). lra.
    + rewrite (C0 _ (rget e m)) by lra. rewrite (tot_ext _ (fun _ => 0)); [apply tot_zero|]. intros j Hj. apply C0. pose proof (edges_mono (j + 1) m ltac:(lia) ltac:(lia)). lra.
    + rewrite (C0 _ (rget e m)) by lra. rewrite (tot_ext _ (fun _ => 0)); [apply tot_zero|]. intros j Hj. apply C0. pose proof (edges_mono 0 j ltac:(lia) ltac:(lia)). lra.
Qed.
End Coord.

(** ** both coordinates *)
Definition box (xa ya xb yb x0 x1 y0 y1 : R) : R :=
  ivl (Rmax (Rmax 0 (lower ya yb y0 y1)) (lower xa xb x0 x1)) (Rmin (Rmin 1 (upper ya yb y0 y1)) (upper xa xb x0 x1)).
Lemma box_share xa ya xb yb x0 x1 y0 y1 : share (fun t => x0 <= along xa xb t <= x1 /\ y0 <= along ya yb t <= y1) (box xa ya xb yb x0 x1 y0 y1).
Proof.
  apply ivl_share.
  - eapply Rle_trans; [apply Rmax_l|]. eapply Rle_trans; [apply Rmax_l|apply Rle_refl].
  - eapply Rle_trans; [apply Rmin_l|apply Rmin_l].
  - intros t Ht. rewrite !between_iff by exact Ht. unfold Rmax, Rmin. repeat destruct (Rle_dec _ _); lra.
Qed.
Lemma max3 u v : Rmax (Rmax 0 u) v = Rmax (Rmax 0 v) u.
Proof. unfold Rmax. repeat destruct (Rle_dec _ _); lra. Qed.
Lemma min3 u v : Rmin (Rmin 1 u) v = Rmin (Rmin 1 v) u.
Proof. unfold Rmin. repeat destruct (Rle_dec _ _); lra. Qed.
Lemma grid_sum ex ey xa ya xb yb : ascending_edges ex -> ascending_edges ey -> ~ on_inner_edge ex xa xb -> ~ on_inner_edge ey ya yb ->
  tot (fun i => tot (fun j => box xa ya xb yb (rget ex j) (rget ex (j + 1)) (rget ey i) (rget ey (i + 1))) (pixels ex)) (pixels ey) =
  box xa ya xb yb (rget ex 0) (rget ex (pixels ex)) (rget ey 0) (rget ey (pixels ey)).
Proof.
  intros AX AY NX NY. set (P := Rmax 0 (lower xa xb (rget ex 0) (rget ex (pixels ex)))). set (Q := Rmin 1 (upper xa xb (rget ex 0) (rget ex (pixels ex)))).
  rewrite (tot_ext _ (fun i => ivl (Rmax P (lower ya yb (rget ey i) (rget ey (i + 1)))) (Rmin Q (upper ya yb (rget ey i) (rget ey (i + 1)))))).
  - rewrite (columns_sum ey ya yb AY P Q NY); [|apply Rmax_l|apply Rmin_l]. unfold box, P, Q. f_equal; [apply max3|apply min3].
  - intros i Hi. unfold box. rewrite (columns_sum ex xa xb AX _ _ NX); [|apply Rmax_l|apply Rmin_l]. unfold P, Q. f_equal; [apply max3|apply min3].
Qed.
