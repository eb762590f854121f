(** Consequences for the reported series. *)
From Coq Require Import List ZArith Bool Reals Lra Lia.
From Flocq Require Import Core.
From Verif Require Import Base Num RealSpec SpecGram_proofs5 LinAlg PosDef Validator_model Validator_spec PathShare_spec PathShare_proofs PathShare_proofs2.
Import ListNotations.
Local Open Scope R_scope.

Lemma reports_ext w times values u v : (forall k, u k = v k) -> reports w times values u -> reports w times values v.
Proof. intros E H t1 i1 i2 t2. rewrite H. f_equal. apply map_ext. intros k. rewrite E. reflexivity. Qed.

Lemma weighted_sum ex ey xa ya xb yb w times values field s c :
  ascending_edges ex -> ascending_edges ey -> path_weights ex ey xa ya xb yb w -> images ey ex times values field ->
  ~ on_inner_edge ex xa xb -> ~ on_inner_edge ey ya yb -> share (in_grid ex ey xa ya xb yb) s -> 0 < s ->
  (forall i j, (i < pixels ey)%nat -> (j < pixels ex)%nat -> share (in_pixel ex ey xa ya xb yb i j) (c i j)) ->
  tot (fun i => tot (fun j => c i j) (pixels ex)) (pixels ey) = s /\
  reports w times values (fun k => tot (fun i => tot (fun j => match field k i j with Some v => v * c i j | None => 0 end) (pixels ex)) (pixels ey)).
Proof.
  intros AX AY PW IM NX NY G P C. pose proof (share_unique _ _ _ G (grid_share_ok ex ey xa ya xb yb)) as E.
  assert (EC : forall i j, (i < pixels ey)%nat -> (j < pixels ex)%nat -> c i j = cell_share ex ey xa ya xb yb i j) by (intros i j Hi Hj; exact (share_unique _ _ _ (C i j Hi Hj) (cell_share_ok _ _ _ _ _ _ _ _))).
  split.
  - rewrite E, <- (cells_sum ex ey xa ya xb yb AX AY NX NY). apply tot_ext. intros i Hi. apply tot_ext. intros j Hj. apply EC; auto.
  - eapply reports_ext; [|apply (series_is ex ey xa ya xb yb w times values field PW IM); apply some_cell; auto; lra].
    intros k. unfold amount. apply tot_ext. intros i Hi. apply tot_ext. intros j Hj. rewrite EC by auto. reflexivity.
Qed.

Lemma ends_inside ex ey xa ya xb yb :
  rget ex 0 <= xa <= rget ex (pixels ex) -> rget ex 0 <= xb <= rget ex (pixels ex) -> rget ey 0 <= ya <= rget ey (pixels ey) -> rget ey 0 <= yb <= rget ey (pixels ey) ->
  share (in_grid ex ey xa ya xb yb) 1.
Proof.
  intros A B C D. left. exists 0, 1. split; [lra|]. split; [lra|]. split; [lra|]. intros t Ht. split; [intros _; exact Ht|intros _].
  assert (K : forall lo hi u v, lo <= u <= hi -> lo <= v <= hi -> lo <= along u v t <= hi).
  { intros lo hi u v U V. unfold along. replace (u + t * (v - u)) with ((1 - t) * u + t * v) by ring.
    assert (lo * (1 - t) <= u * (1 - t) <= hi * (1 - t)) by (split; apply Rmult_le_compat_r; lra). assert (lo * t <= v * t <= hi * t) by (split; apply Rmult_le_compat_r; lra). lra. }
  split; apply K; auto.
Qed.

Lemma uniform_rain ex ey xa ya xb yb w times values field s c :
  ascending_edges ex -> ascending_edges ey -> path_weights ex ey xa ya xb yb w -> images ey ex times values field ->
  ~ on_inner_edge ex xa xb -> ~ on_inner_edge ey ya yb -> share (in_grid ex ey xa ya xb yb) s -> 0 < s ->
  (forall k i j, field k i j = Some (c k)) -> reports w times values (fun k => c k * s).
Proof.
  intros AX AY PW IM NX NY G P F.
  destruct (weighted_sum ex ey xa ya xb yb w times values field s _ AX AY PW IM NX NY G P (fun i j _ _ => cell_share_ok ex ey xa ya xb yb i j)) as [S H].
  eapply reports_ext; [|exact H]. intros k. cbv beta. rewrite <- S, <- tot_scal. apply tot_ext. intros i _. rewrite <- tot_scal. apply tot_ext. intros j _. rewrite F. reflexivity.
Qed.

Lemma between_values ex ey xa ya xb yb w times values field :
  ascending_edges ex -> ascending_edges ey -> path_weights ex ey xa ya xb yb w -> images ey ex times values field ->
  ~ on_inner_edge ex xa xb -> ~ on_inner_edge ey ya yb -> share (in_grid ex ey xa ya xb yb) 1 ->
  exists v, reports w times values v /\
  forall k lo hi, (forall i j, (exists t, 0 <= t <= 1 /\ in_pixel ex ey xa ya xb yb i j t) -> exists r, field k i j = Some r /\ lo <= r <= hi) -> lo <= v k <= hi.
Proof.
  intros AX AY PW IM NX NY G.
  destruct (weighted_sum ex ey xa ya xb yb w times values field 1 _ AX AY PW IM NX NY G Rlt_0_1 (fun i j _ _ => cell_share_ok ex ey xa ya xb yb i j)) as [S H].
  eexists. split; [exact H|]. intros k lo hi B. cbv beta.
  assert (K : forall i j, lo * cell_share ex ey xa ya xb yb i j <= match field k i j with Some v => v * cell_share ex ey xa ya xb yb i j | None => 0 end <= hi * cell_share ex ey xa ya xb yb i j).
  { intros i j. pose proof (cell_nonneg ex ey xa ya xb yb i j) as N. destruct (cell_share_ok ex ey xa ya xb yb i j) as [(a & b & A1 & A2 & E & X)|(Z & _)].
    - destruct (B i j) as (r & -> & R); [exists a; split; [lra|apply X; lra]|]. split; apply Rmult_le_compat_r; lra.
    - rewrite Z. destruct (field k i j); lra. }
  split.
  - rewrite <- (Rmult_1_r lo), <- S, <- tot_scal. apply tot_le. intros i _. rewrite <- tot_scal. apply tot_le. intros j _. apply K.
  - rewrite <- (Rmult_1_r hi), <- S, <- tot_scal. apply tot_le. intros i _. rewrite <- tot_scal. apply tot_le. intros j _. apply K.
Qed.

Lemma missing_pixel ex ey xa ya xb yb w times values field s c m i0 j0 :
  ascending_edges ex -> ascending_edges ey -> path_weights ex ey xa ya xb yb w -> images ey ex times values field ->
  ~ on_inner_edge ex xa xb -> ~ on_inner_edge ey ya yb -> share (in_grid ex ey xa ya xb yb) s -> 0 < s ->
  (i0 < pixels ey)%nat -> (j0 < pixels ex)%nat -> share (in_pixel ex ey xa ya xb yb i0 j0) m ->
  (forall k i j, field k i j = if Nat.eqb i i0 && Nat.eqb j j0 then None else Some (c k)) -> reports w times values (fun k => c k * (s - m)).
Proof.
  intros AX AY PW IM NX NY G P Hi Hj M F.
  destruct (weighted_sum ex ey xa ya xb yb w times values field s _ AX AY PW IM NX NY G P (fun i j _ _ => cell_share_ok ex ey xa ya xb yb i j)) as [S H].
  rewrite (share_unique _ _ _ M (cell_share_ok ex ey xa ya xb yb i0 j0)). eapply reports_ext; [|exact H]. intros k. cbv beta.
  set (C := cell_share ex ey xa ya xb yb) in *. rewrite <- S.
  rewrite (tot_ext _ (fun i => c k * tot (fun j => C i j) (pixels ex) - c k * (delta i0 i * C i0 j0))).
  - rewrite tot_sub, !tot_scal. rewrite (tot_delta_l (fun _ => C i0 j0) i0 _ Hi). ring.
  - intros i _. rewrite <- tot_scal. rewrite (tot_ext _ (fun j => c k * C i j - c k * (delta i0 i * (delta j0 j * C i0 j)))).
    + rewrite tot_sub, !tot_scal, (tot_delta_l (fun j => C i0 j) j0 _ Hj). reflexivity.
    + intros j _. rewrite F. unfold delta. rewrite (Nat.eqb_sym i0 i), (Nat.eqb_sym j0 j). destruct (Nat.eqb_spec i i0) as [->|]; [|cbn [andb]; ring].
      destruct (Nat.eqb_spec j j0) as [->|]; cbn [andb]; ring.
Qed.

Lemma outside_raises ex ey xa ya xb yb w times values :
  ascending_edges ex -> ascending_edges ey -> path_weights ex ey xa ya xb yb w -> share (in_grid ex ey xa ya xb yb) 0 -> reports_nothing w times values.
Proof. intros AX AY PW G. apply (nothing_reported ex ey xa ya xb yb w times values AX AY PW). exact (eq_sym (share_unique _ _ _ G (grid_share_ok ex ey xa ya xb yb))). Qed.

Lemma along_edge ex ey x ya yb j w times values field c :
  ascending_edges ex -> ascending_edges ey -> path_weights ex ey x ya x yb w -> images ey ex times values field ->
  (0 < j < pixels ex)%nat -> rget ex j = x -> ~ on_inner_edge ey ya yb -> rget ey 0 <= ya <= rget ey (pixels ey) -> rget ey 0 <= yb <= rget ey (pixels ey) ->
  (forall k i j, field k i j = Some (c k)) -> reports w times values (fun k => 2 * c k).
Proof.
  intros AX AY PW IM Hj E NY IA IB F. pose proof AX as [LX SX]. assert (LP : (pixels ex = length ex - 1)%nat) by reflexivity.
  set (row := fun i => ivl (Rmax 0 (lower ya yb (rget ey i) (rget ey (i + 1)))) (Rmin 1 (upper ya yb (rget ey i) (rget ey (i + 1))))).
  assert (R1 : tot row (pixels ey) = 1).
  { unfold row. rewrite (columns_sum ey ya yb AY 0 1 NY ltac:(lra) ltac:(lra)).
    apply (share_unique (fun t => rget ey 0 <= along ya yb t <= rget ey (pixels ey))).
    - apply ivl_share; [apply Rmax_l|apply Rmin_l|]. intros t Ht. rewrite between_iff by exact Ht. unfold Rmax, Rmin. repeat destruct (Rle_dec _ _); lra.
    - left. exists 0, 1. split; [lra|]. split; [lra|]. split; [lra|]. intros t Ht. split; [auto|intros _]. unfold along. replace (ya + t * (yb - ya)) with ((1 - t) * ya + t * yb) by ring.
      assert (rget ey 0 * (1 - t) <= ya * (1 - t) <= rget ey (pixels ey) * (1 - t)) by (split; apply Rmult_le_compat_r; lra).
      assert (rget ey 0 * t <= yb * t <= rget ey (pixels ey) * t) by (split; apply Rmult_le_compat_r; lra). lra. }
  assert (CS : forall i b, cell_share ex ey x ya x yb i b = if Rle_dec (rget ex b) x then if Rle_dec x (rget ex (b + 1)) then row i else 0 else 0).
  { intros i b. unfold cell_share, box, row, lower, upper. destruct (Rlt_dec x x); [lra|].
    set (A := if Rlt_dec ya yb then _ else _). set (B := if Rlt_dec ya yb then (rget ey (i + 1) - ya) / (yb - ya) else _).
    destruct (Rle_dec (rget ex b) x); [destruct (Rle_dec x (rget ex (b + 1)))|].
    - rewrite (Rmax_left (Rmax 0 A) 0) by apply Rmax_l. rewrite (Rmin_left (Rmin 1 B) 1) by apply Rmin_l. reflexivity.
    - unfold ivl. rewrite Rmax_left; [reflexivity|]. pose proof (Rmin_r (Rmin 1 B) 0). pose proof (Rmax_r (Rmax 0 A) 1). lra.
    - unfold ivl. rewrite Rmax_left; [reflexivity|]. pose proof (Rmin_r (Rmin 1 B) 0). pose proof (Rmax_r (Rmax 0 A) 1). lra. }
  set (hit := fun b => delta (j - 1) b + delta j b).
  assert (CS2 : forall i b, (b < pixels ex)%nat -> cell_share ex ey x ya x yb i b = hit b * row i).
  { intros i b Hb. rewrite CS. unfold hit, delta. rewrite <- E.
    destruct (Nat.eqb_spec (j - 1) b) as [Q|Q]; [|destruct (Nat.eqb_spec j b) as [Q'|Q']].
    - assert (b + 1 = j)%nat by lia. destruct (Nat.eqb_spec j b); [lia|]. rewrite H. pose proof (edges_mono ex AX b j ltac:(lia) ltac:(lia)).
      destruct (Rle_dec (rget ex b) (rget ex j)); [|lra]. destruct (Rle_dec (rget ex j) (rget ex j)); lra.
    - subst b. specialize (SX j ltac:(lia)). destruct (Rle_dec (rget ex j) (rget ex j)); [|lra]. destruct (Rle_dec (rget ex j) (rget ex (j + 1))); lra.
    - destruct (Nat.lt_ge_cases b j) as [L|L].
      + pose proof (edges_strict ex AX (b + 1) j ltac:(lia) ltac:(lia)). destruct (Rle_dec (rget ex b) (rget ex j)); [|lra]. destruct (Rle_dec (rget ex j) (rget ex (b + 1))); lra.
      + pose proof (edges_strict ex AX j b ltac:(lia) ltac:(lia)). destruct (Rle_dec (rget ex b) (rget ex j)); lra. }
  assert (H2 : tot hit (pixels ex) = 2).
  { unfold hit. rewrite tot_add. rewrite (tot_ext (delta (j - 1)) (fun k => delta (j - 1) k * 1)), (tot_ext (delta j) (fun k => delta j k * 1)) by (intros; ring).
    rewrite (tot_delta_l (fun _ => 1)), (tot_delta_l (fun _ => 1)) by lia. ring. }
  eapply reports_ext; [|apply (series_is ex ey x ya x yb w times values field PW IM)].
  - intros k. unfold amount. rewrite (tot_ext _ (fun i => (2 * c k) * row i)).
    + rewrite tot_scal, R1. ring.
    + intros i _. rewrite (tot_ext _ (fun b => (c k * row i) * hit b)).
      * rewrite tot_scal, H2. ring.
      * intros b Hb. rewrite F, (CS2 i b Hb). ring.
  - destruct (tot_pos_some row (pixels ey)) as (i & Hi & Pi); [lra|]. exists i, j. split; [exact Hi|]. split; [lia|]. rewrite CS2 by lia. unfold hit, delta. rewrite Nat.eqb_refl.
    destruct (Nat.eqb (j - 1) j); lra.
Qed.
