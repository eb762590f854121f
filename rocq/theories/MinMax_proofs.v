(** Proofs about the min/max attenuation. *)
From Coq Require Import List ZArith Bool Reals Lra Lia Arith.
From Flocq Require Import Core.
From Verif Require Import Base Num NumList NpOps RealSpec RealStat MinMax_model MinMax_spec.
Import ListNotations.
Local Open Scope nat_scope.

Section Any.
Context {O : numops} (S : numsem O).

Lemma bcast2_eq (f : O -> O -> O) l1 l2 : length l1 = length l2 -> bcast2 f l1 l2 = Ok (map2 f l1 l2).
Proof. intros H. unfold bcast2. rewrite H, Nat.eqb_refl. reflexivity. Qed.

Lemma fill_nan_length (l : list O) : length (fill_nan l) = length l.
Proof. unfold fill_nan. apply mask_fill_length. apply map_length. Qed.

Lemma fill_nan_get (l : list O) i : i < length l ->
  get n_nan (fill_nan l) i = filled (n_rint (nanmean l)) (get n_nan l i).
Proof.
  intros H. unfold fill_nan. rewrite mask_fill_get by (rewrite ?map_length; auto).
  rewrite get_map with (d := n_nan) by auto. reflexivity.
Qed.

Lemma list_as_map (l : list O) n f : length l = n -> (forall i, i < n -> get n_nan l i = f i) -> l = map f (seq 0 n).
Proof.
  intros L H. apply get_ext with (d := n_nan); rewrite ?map_length, ?seq_length; auto.
  intros i Hi. rewrite get_map_seq by lia. apply H. lia.
Qed.

Lemma slice_as_map (l : list O) s k f : s + k <= length l -> (forall i, i < length l -> get n_nan l i = f i) ->
  slice s (s + k) l = map f (seq s k).
Proof.
  intros L H. apply get_ext with (d := n_nan).
  - rewrite slice_length, map_length, seq_length by lia. lia.
  - rewrite slice_length by lia. intros i Hi. rewrite get_slice by lia. rewrite H by lia.
    rewrite get_map with (d := 0) by (rewrite seq_length; lia). unfold get. rewrite seq_nth by lia. reflexivity.
Qed.

Lemma min_max_det (tx_min tx_max rx_min rx_max : list O) gT gR window n :
  length tx_min = n -> length tx_max = n -> length rx_min = n -> length rx_max = n ->
  let cmax := corrected_max tx_max rx_min gT gR in
  let cmin := corrected_min tx_min rx_max gT gR in
  let fmax := n_rint (n_mean (numbers cmax n)) in
  let fmin := n_rint (n_mean (numbers cmin n)) in
  exists out, calc_A_min_max tx_min tx_max rx_min rx_max gT gR window = Ok out /\ length out = n /\
  (forall i, i < n -> i < window -> get n_nan out i = n_nan) /\
  (forall i, i < n -> window <= i -> exists m,
     np_min (map (fun k => filled fmin (cmin k)) (seq (i - window) (window + 1))) = Ok m /\
     get n_nan out i = positive_part (n_sub (filled fmax (cmax i)) m)).
Proof.
  intros L1 L2 L3 L4 cmax cmin fmax fmin. unfold calc_A_min_max.
  rewrite !bcast2_eq by lia. cbn [bind]. cbv zeta.
  set (A := map _ (map2 n_sub tx_max rx_min)). set (B := map _ (map2 n_sub tx_min rx_max)).
  assert (LA : length A = n) by (unfold A; rewrite map_length, map2_length; lia).
  assert (LB : length B = n) by (unfold B; rewrite map_length, map2_length; lia).
  assert (GA : forall i, i < n -> get n_nan A i = cmax i).
  { intros i Hi. unfold A. rewrite get_map with (d := n_nan) by (rewrite map2_length; lia).
    rewrite get_map2 with (da := n_nan) (db := n_nan) by lia. reflexivity. }
  assert (GB : forall i, i < n -> get n_nan B i = cmin i).
  { intros i Hi. unfold B. rewrite get_map with (d := n_nan) by (rewrite map2_length; lia).
    rewrite get_map2 with (da := n_nan) (db := n_nan) by lia. reflexivity. }
  assert (FA : n_rint (nanmean A) = fmax) by (unfold fmax, numbers, nanmean; rewrite <- (list_as_map A n cmax) by auto; reflexivity).
  assert (FB : n_rint (nanmean B) = fmin) by (unfold fmin, numbers, nanmean; rewrite <- (list_as_map B n cmin) by auto; reflexivity).
  set (FA' := fill_nan A). set (FB' := fill_nan B).
  assert (LFA : length FA' = n) by (unfold FA'; rewrite fill_nan_length; auto).
  assert (LFB : length FB' = n) by (unfold FB'; rewrite fill_nan_length; auto).
  assert (GFA : forall i, i < n -> get n_nan FA' i = filled fmax (cmax i)).
  { intros i Hi. unfold FA'. rewrite fill_nan_get by lia. rewrite GA, FA; auto. }
  assert (GFB : forall i, i < n -> get n_nan FB' i = filled fmin (cmin i)).
  { intros i Hi. unfold FB'. rewrite fill_nan_get by lia. rewrite GB, FB; auto. }
  rewrite LFA.
  set (W := fun i => map (fun k => filled fmin (cmin k)) (seq (i - window) (window + 1))).
  assert (SL : forall i, window <= i -> i < n -> slice (i - window) (i + 1) FB' = W i).
  { intros i H1 H2. unfold W. replace (i + 1) with (i - window + (window + 1)) by lia.
    apply slice_as_map; [lia|]. rewrite LFB. auto. }
  destruct (for_range_res_inv
    (fun i (st : list O) => length st = n /\ forall j, window <= j -> j < i -> j < n -> exists m, np_min (W j) = Ok m /\ get n_nan st j = n_sub (filled fmax (cmax j)) m)
    (n - window) window
    (fun i Ar_max => do m <- np_min (slice (i - window) (i + 1) FB'); Ok (upd i (n_sub (nget FA' i) m) Ar_max))
    (repeat zero n)) as (st & E & L & H).
  - split; [apply repeat_length|]. intros; lia.
  - intros i st Hi [L H]. rewrite SL by lia.
    destruct (np_min_ok (W i)) as [m Em]; [unfold W; rewrite Nat.add_comm; simpl; discriminate|].
    rewrite Em. cbn [bind]. eexists. split; [reflexivity|]. split; [rewrite upd_length; auto|].
    intros j Hj1 Hj2 Hj3. rewrite get_upd by lia. destruct (Nat.eqb_spec i j).
    + subst j. exists m. split; [auto|]. unfold nget. rewrite GFA by lia. reflexivity.
    + apply H; lia.
  - rewrite E. cbn [bind]. set (st' := map _ st).
    assert (LS : length st' = n) by (unfold st'; rewrite map_length; auto).
    rewrite LS. eexists. split; [reflexivity|]. split; [rewrite upd_slice_length; auto|]. split.
    + intros i H1 H2. rewrite get_upd_slice_in by (rewrite repeat_length; lia). apply get_repeat. lia.
    + intros i H1 H2. destruct (H i H2 ltac:(lia) H1) as (m & Hm & Gm). exists m. split; auto.
      rewrite get_upd_slice_out by (rewrite repeat_length; lia). unfold st'.
      rewrite get_map with (d := n_nan) by lia. rewrite Gm. reflexivity.
Qed.

Lemma min_max_main (tx_min tx_max rx_min rx_max : list O) gT gR window n :
  length tx_min = n -> length tx_max = n -> length rx_min = n -> length rx_max = n ->
  let cmax := corrected_max tx_max rx_min gT gR in
  let cmin := corrected_min tx_min rx_max gT gR in
  let fmax := n_rint (n_mean (numbers cmax n)) in
  let fmin := n_rint (n_mean (numbers cmin n)) in
  exists out, calc_A_min_max tx_min tx_max rx_min rx_max gT gR window = Ok out /\ length out = n /\
  (forall i, i < n -> i < window -> get n_nan out i = n_nan) /\
  (forall i, i < n -> window <= i -> exists m,
     is_min (map (fun k => filled fmin (cmin k)) (seq (i - window) (window + 1))) m /\
     get n_nan out i = positive_part (n_sub (filled fmax (cmax i)) m)).
Proof.
  intros L1 L2 L3 L4 cmax cmin fmax fmin.
  destruct (min_max_det tx_min tx_max rx_min rx_max gT gR window n L1 L2 L3 L4) as (out & E & L & H1 & H2).
  exists out. split; [exact E|]. split; [exact L|]. split; [exact H1|]. intros i Hi Hw. destruct (H2 i Hi Hw) as (m & Hm & Gm).
  exists m. split; [apply (np_min_spec S); exact Hm|exact Gm].
Qed.

Lemma positive_part_nonneg (x : O) : n_ltb (positive_part x) (n_ofZ 0) = false.
Proof. unfold positive_part. destruct (n_ltb x (n_ofZ 0)) eqn:E; auto. apply (ltb_irrefl S). Qed.

Lemma min_max_float (tx_min tx_max rx_min rx_max : list O) gT gR window n :
  length tx_min = n -> length tx_max = n -> length rx_min = n -> length rx_max = n ->
  exists fmax fmin out, calc_A_min_max tx_min tx_max rx_min rx_max gT gR window = Ok out /\ length out = n /\
  forall i, i < n ->
    (i < window -> get n_nan out i = n_nan) /\
    (window <= i ->
       n_ltb (get n_nan out i) (n_ofZ 0) = false /\
       exists m,
       is_min (map (fun k => filled fmin (corrected_min tx_min rx_max gT gR k)) (seq (i - window) (window + 1))) m /\
       get n_nan out i = positive_part (n_sub (filled fmax (corrected_max tx_max rx_min gT gR i)) m)).
Proof.
  intros L1 L2 L3 L4. destruct (min_max_main tx_min tx_max rx_min rx_max gT gR window n L1 L2 L3 L4) as (out & E & L & H1 & H2).
  eexists _, _, out. split; [exact E|]. split; [exact L|]. intros i Hi. split; [intros; apply H1; auto|].
  intros Hw. destruct (H2 i Hi Hw) as (m & Hm & Gm). split; [rewrite Gm; apply positive_part_nonneg|].
  exists m. split; [exact Hm|exact Gm].
Qed.
End Any.

(** ** exact arithmetic *)
Lemma numbers_ofR (f : nat -> XR) n : (forall i, i < n -> n_isinf (f i) = false) -> exists r, numbers f n = ofR r.
Proof.
  intros H. apply finite_ofR. intros x Hx. unfold numbers in Hx. apply filter_In in Hx as [Hx N].
  apply in_map_iff in Hx as (i & <- & Hi). apply in_seq in Hi. split; [destruct (n_isnan (f i)); auto; discriminate|apply H; lia].
Qed.

Lemma min_max_exact (tx_min tx_max rx_min rx_max : list XR) (gT gR : R) window n :
  length tx_min = n -> length tx_max = n -> length rx_min = n -> length rx_max = n ->
  (forall x, In x (tx_min ++ tx_max ++ rx_min ++ rx_max) -> n_isinf x = false) ->
  let cmax := corrected_max tx_max rx_min (XFin gT : XR) (XFin gR : XR) in
  let cmin := corrected_min tx_min rx_max (XFin gT : XR) (XFin gR : XR) in
  (exists i, i < n /\ n_isnan (cmax i) = false) -> (exists i, i < n /\ n_isnan (cmin i) = false) ->
  exists (ymax ymin : list R) out,
    numbers cmax n = ofR ymax /\ numbers cmin n = ofR ymin /\
    calc_A_min_max tx_min tx_max rx_min rx_max (XFin gT : XR) (XFin gR : XR) window = Ok out /\
    let fmax := XFin (IZR (ZnearestE (rmean ymax))) : XR in
    let fmin := XFin (IZR (ZnearestE (rmean ymin))) : XR in
    forall i, i < n -> window <= i ->
    exists x m : R,
      filled fmax (cmax i) = (XFin x : XR) /\
      (exists k, i - window <= k <= i /\ filled fmin (cmin k) = (XFin m : XR)) /\
      (forall k, i - window <= k <= i -> exists y, filled fmin (cmin k) = (XFin y : XR) /\ (m <= y)%R) /\
      get (n_nan : XR) out i = (XFin (Rmax 0 (x - m)) : XR).
Proof.
  intros L1 L2 L3 L4 HI cmax cmin EX EN.
  assert (NI : forall (x : XR) b, n_isinf x = false -> n_isinf (n_sub x (XFin b : XR)) = false) by (intros [| |a|] b; simpl; auto).
  assert (NI' : forall (x : XR) b, n_isinf x = false -> n_isinf (n_add x (XFin b : XR)) = false) by (intros [| |a|] b; simpl; auto).
  assert (NS : forall x y : XR, n_isinf x = false -> n_isinf y = false -> n_isinf (n_sub x y) = false) by (intros [| |a|] [| |b|]; simpl; auto).
  assert (EB : bias (XFin gT : XR) (XFin gR : XR) = (XFin ((gT + gR) / 2) : XR)).
  { unfold bias. change (n_div (n_add (XFin gT : XR) (XFin gR : XR)) (n_ofZ 2)) with (xdiv (XFin (gT + gR)) (XFin 2) : XR).
    unfold xdiv. rewrite Req_bool_false by lra. reflexivity. }
  assert (G : forall l : list XR, (forall x, In x l -> n_isinf x = false) -> forall i, n_isinf (get (n_nan : XR) l i) = false).
  { intros l H i. destruct (le_lt_dec (length l) i); [unfold get; rewrite nth_overflow; auto|apply H, get_In; auto]. }
  assert (I1 : forall i, n_isinf (cmax i) = false).
  { intros i. unfold cmax, corrected_max. rewrite EB. apply NI, NS; apply G; intros; apply HI; rewrite !in_app_iff; auto. }
  assert (I2 : forall i, n_isinf (cmin i) = false).
  { intros i. unfold cmin, corrected_min. rewrite EB. apply NI', NS; apply G; intros; apply HI; rewrite !in_app_iff; auto. }
  destruct (numbers_ofR cmax n (fun i _ => I1 i)) as [ymax Ymax]. destruct (numbers_ofR cmin n (fun i _ => I2 i)) as [ymin Ymin].
  destruct (min_max_main XRsem tx_min tx_max rx_min rx_max (XFin gT : XR) (XFin gR : XR) window n L1 L2 L3 L4) as (out & E & L & H1 & H2).
  fold cmax in H2. fold cmin in H2. rewrite Ymax, Ymin in H2.
  assert (NE : forall (f : nat -> XR) y, (exists i, i < n /\ n_isnan (f i) = false) -> numbers f n = ofR y -> y <> []).
  { intros f y (i & Hi & Ni) Hy ->. assert (In (f i) (numbers f n)).
    { unfold numbers. apply filter_In. split; [apply in_map, in_seq; lia|rewrite Ni; auto]. }
    rewrite Hy in H. destruct H. }
  rewrite (n_mean_ofR ymax (NE _ _ EX Ymax)), (n_mean_ofR ymin (NE _ _ EN Ymin)) in H2.
  exists ymax, ymin, out. split; [auto|]. split; [auto|]. split; [auto|]. cbv zeta.
  set (fmax := XFin (IZR (ZnearestE (rmean ymax)))) in *. set (fmin := XFin (IZR (ZnearestE (rmean ymin)))) in *.
  change (n_rint (XFin (rmean ymax) : XR)) with (fmax : XR) in H2. change (n_rint (XFin (rmean ymin) : XR)) with (fmin : XR) in H2.
  assert (F : forall (fill : R) x, n_isinf (x : XR) = false -> exists r, filled (XFin fill : XR) x = (XFin r : XR)).
  { intros fill [| |a|] Hx; try discriminate; eexists; reflexivity. }
  intros i Hi Hw. destruct (H2 i Hi Hw) as (m & Hm & Gm).
  destruct (F (IZR (ZnearestE (rmean ymax))) (cmax i) (I1 i)) as [x Ex]. fold fmax in Ex.
  unfold is_min in Hm.
  assert (N0 : existsb n_isnan (map (fun k => filled (fmin : XR) (cmin k)) (seq (i - window) (window + 1))) = false).
  { apply not_true_is_false. intros C. apply existsb_exists in C as (z & Hz & Nz). apply in_map_iff in Hz as (k & <- & Hk).
    destruct (F (IZR (ZnearestE (rmean ymin))) (cmin k) (I2 k)) as [r Er]. fold fmin in Er. rewrite Er in Nz. discriminate. }
  rewrite N0 in Hm. destruct Hm as [Im Lm]. apply in_map_iff in Im as (k & Ek & Hk). apply in_seq in Hk.
  destruct (F (IZR (ZnearestE (rmean ymin))) (cmin k) (I2 k)) as [r Er]. fold fmin in Er. rewrite Er in Ek. subst m.
  exists x, r. split; [exact Ex|]. split; [exists k; split; [lia|exact Er]|]. split.
  - intros j Hj. destruct (F (IZR (ZnearestE (rmean ymin))) (cmin j) (I2 j)) as [y Ey]. fold fmin in Ey. exists y. split; [exact Ey|].
    assert (Lj : n_leb (XFin r : XR) (filled (fmin : XR) (cmin j)) = true) by (apply Lm, in_map_iff; exists j; split; auto; apply in_seq; lia).
    rewrite Ey in Lj. change (Rle_bool r y = true) in Lj. destruct (Rle_bool_spec r y); auto; discriminate.
  - rewrite Gm. transitivity (positive_part (XFin (x - r) : XR)).
    { apply f_equal. transitivity (n_sub (XFin x : XR) (XFin r : XR)); [apply f_equal2; [exact Ex|reflexivity]|reflexivity]. }
    unfold positive_part. change (n_ltb (XFin (x - r) : XR) (n_ofZ 0)) with (Rlt_bool (x - r) 0).
    destruct (Rlt_bool_spec (x - r) 0).
    + rewrite Rmax_left by lra. reflexivity.
    + rewrite Rmax_right by lra. reflexivity.
Qed.
