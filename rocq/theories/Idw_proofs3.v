(** * Proofs about IDW: the grid interpolator's results; the brute force search in binary64 *)
From Coq Require Import List ZArith Bool Lia Arith.
From Flocq Require Import IEEE754.BinarySingleNaN.
From Verif Require Import Base Num NumF64 NumList NpOps Libm RealSpec Idw_model Idw_spec Idw_proofs Idw_proofs2.
Import ListNotations.
Local Open Scope nat_scope.

(** ** shapes *)
Lemma reshape_length {A} r c (l : list A) : length (reshape r c l) = r.
Proof. revert l. induction r; intros; simpl; auto. Qed.
Lemma reshape_get {A} (d : A) r c : forall l i j, length l = r * c -> i < r -> j < c ->
  length (get [] (reshape r c l) i) = c /\ get d (get [] (reshape r c l) i) j = get d l (i * c + j).
Proof.
  induction r as [|r IH]; intros l i j Hl Hi Hj; [lia|]. cbn [reshape]. simpl in Hl. destruct i as [|i].
  - unfold get at 1 3. cbn [nth]. rewrite firstn_length, Nat.min_l by lia. split; auto. unfold get. rewrite nth_firstn_lt by lia. f_equal.
  - change (get [] (firstn c l :: reshape r c (skipn c l)) (S i)) with (get [] (reshape r c (skipn c l)) i).
    destruct (IH (skipn c l) i j) as [H1 H2]; [rewrite skipn_length; lia|lia|lia|]. split; auto. rewrite H2.
    unfold get. rewrite nth_skipn_plus. f_equal. simpl. lia.
Qed.
Lemma concat_rect {A} (d : A) cols : forall g rows, length g = rows -> (forall r, In r g -> length r = cols) ->
  length (concat g) = rows * cols /\ forall i j, i < rows -> j < cols -> get d (concat g) (i * cols + j) = get d (get [] g i) j.
Proof.
  induction g as [|r g IH]; intros rows Hl Hr; subst rows; simpl.
  - split; auto. intros; lia.
  - destruct (IH (length g) eq_refl) as [I1 I2]; [intros; apply Hr; right; auto|].
    assert (Lr : length r = cols) by (apply Hr; left; auto). rewrite app_length, I1, Lr. split; auto.
    intros i j Hi Hj. destruct i as [|i].
    + unfold get. cbn [nth]. simpl. rewrite app_nth1 by lia. auto.
    + change (get [] (r :: g) (S i)) with (get [] g i). rewrite <- I2 by lia. unfold get. rewrite app_nth2 by lia. f_equal. simpl. lia.
Qed.

Section Any.
Context {O : numops} (S : numsem O) (L : libm O).
Variable query : list (O * O) -> O * O -> nat -> O -> option O -> list (O * nat).

Lemma where_true_cons b m : where_true (b :: m) = (if b then [0] else []) ++ map Datatypes.S (where_true m).
Proof.
  unfold where_true. cbn [length seq]. cbn [filter]. change (get false (b :: m) 0) with b.
  assert (E : filter (fun i => get false (b :: m) i) (seq 1 (length m)) = map Datatypes.S (filter (fun i => get false m i) (seq 0 (length m)))).
  { rewrite <- seq_shift. generalize (seq 0 (length m)). induction l as [|i l IH]; auto. cbn [map filter].
    change (get false (b :: m) (Datatypes.S i)) with (get false m i). rewrite IH. destruct (get false m i); auto. }
  rewrite E. destruct b; auto.
Qed.

Lemma mask_select_present z : forall a : list O, length a = length z ->
  mask_select n_nan (map (fun v => negb (n_isnan v)) z) a = present z a.
Proof.
  induction z as [|v z IH]; intros [|x a] H; try discriminate; auto. injection H as H.
  unfold mask_select. cbn [map]. rewrite where_true_cons, map_app, map_map.
  change (map (fun i => get (n_nan : O) (x :: a) (Datatypes.S i)) (where_true (map (fun v => negb (n_isnan v)) z)))
    with (mask_select n_nan (map (fun v => negb (n_isnan v)) z) a).
  rewrite IH by auto. unfold present. cbn [combine filter fst snd]. destruct (negb (n_isnan v)); reflexivity.
Qed.

Lemma present_length z : forall a : list O, length a = length z -> length (present z a) = length (present z z).
Proof.
  unfold present. induction z as [|v z IH]; intros [|x a] H; try discriminate; auto. injection H as H.
  cbn [combine filter fst snd]. specialize (IH a H). destruct (negb (n_isnan v)); cbn [map length]; lia.
Qed.
Lemma present_nonempty (z : list O) : forallb n_isnan z = false -> present z z <> [].
Proof.
  unfold present. induction z as [|v z IH]; [discriminate|]. cbn [forallb combine filter fst snd].
  destruct (n_isnan v); cbn [andb negb map]; [exact IH|discriminate].
Qed.
Lemma present_no_nan (z : list O) : forall x, In x (present z z) -> n_isnan x = false.
Proof.
  unfold present. intros x H. apply in_map_iff in H. destruct H as ((a & b) & <- & H). apply filter_In in H. destruct H as [H1 H2].
  cbn [fst snd] in *. assert (a = b). { clear H2. induction z as [|v z IH]; [destruct H1|]. cbn [combine] in H1. destruct H1 as [E|H1]; [congruence|auto]. }
  subst. destruct (n_isnan b); auto; discriminate.
Qed.
Lemma present_id (z : list O) : (forall x, In x z -> n_isnan x = false) -> forall a, length a = length z -> present z a = a.
Proof.
  unfold present. induction z as [|v z IH]; intros H [|x a] Hl; try discriminate; auto. injection Hl as Hl.
  cbn [combine filter fst snd]. rewrite (H v) by (left; auto). cbn [negb map fst]. f_equal. apply IH; auto. intros; apply H; right; auto.
Qed.

(** ** NaN values *)
Lemma interp_exclude_nan c (s : interp O) x y z rows cols xg yg : conf s = c -> cf_exclude_nan c = true -> forallb n_isnan z = false ->
  length x = length z -> length y = length z ->
  interp_call L query s x y z rows cols xg yg =
  interp_call L query s (present z x) (present z y) (present z z) rows cols xg yg.
Proof.
  intros HC HE HN Hx Hy. unfold interp_call. rewrite Hx, Hy, (present_length z x), (present_length z y), !Nat.eqb_refl by auto. cbn [andb negb].
  rewrite HN. assert (HN' : forallb n_isnan (present z z) = false).
  { pose proof (present_no_nan z) as P. destruct (present z z) as [|v l] eqn:E; [apply present_nonempty in HN; congruence|].
    cbn [forallb]. rewrite (P v) by (left; auto). auto. }
  rewrite HN'. unfold interpol_func. rewrite HC, HE. cbv zeta.
  rewrite !(mask_select_present z) by auto.
  pose proof (present_length z x Hx) as Px. pose proof (present_length z y Hy) as Py.
  rewrite !(mask_select_present (present z z)) by auto.
  rewrite !(present_id (present z z)) by (auto; apply present_no_nan). reflexivity.
Qed.

Lemma finite_combine x : forall y : list O, all_finite x -> all_finite y -> forallb finite_pt (combine x y) = true.
Proof.
  induction x as [|a x IH]; intros [|b y] Fx Fy; auto. cbn [combine forallb]. rewrite IH by (intros w Hw; first [apply Fx; right; exact Hw|apply Fy; right; exact Hw]).
  unfold finite_pt. cbn [fst snd]. destruct (Fx a (or_introl eq_refl)) as [-> ->], (Fy b (or_introl eq_refl)) as [-> ->]. reflexivity.
Qed.

(** ** results *)
Lemma interp_result c x y z rows cols xg yg :
  length x = length z -> length y = length z -> forallb n_isnan z = false -> 2 <= cf_nnear c ->
  rectangular rows cols xg -> rectangular rows cols yg -> 0 < rows -> 0 < cols ->
  let sel := fun a => if cf_exclude_nan c then present z a else a in
  all_finite (sel x) -> all_finite (sel y) -> all_finite (concat xg) -> all_finite (concat yg) ->
  exists zg, snd (interp_call L query (new_interp c) x y z rows cols xg yg) = Ok zg /\ rectangular rows cols zg /\
  forall i j, i < rows -> j < cols ->
    get n_nan (get [] zg i) j = idw_one L (sel z) (cf_p c)
      (query (combine (sel x) (sel y)) (get n_nan (get [] xg i) j, get n_nan (get [] yg i) j) (cf_nnear c) zero (cf_max_distance c)).
Proof.
  intros Hx Hy HN Hk RX RY Hr Hc sel Fx Fy Fxg Fyg.
  unfold interp_call. rewrite Hx, Hy, Nat.eqb_refl. cbn [andb negb]. rewrite HN.
  unfold interpol_func. cbn [new_interp conf built]. cbv zeta.
  assert (ES : forall a, length a = length z -> (if cf_exclude_nan c then mask_select n_nan (map (fun v => negb (n_isnan v)) z) a else a) = sel a).
  { intros a Ha. unfold sel. destruct (cf_exclude_nan c); auto. apply mask_select_present; auto. }
  rewrite !ES by auto.
  assert (Lx : length (sel x) = length (sel z)) by (unfold sel; destruct (cf_exclude_nan c); auto; apply present_length; auto).
  assert (Ly : length (sel y) = length (sel z)) by (unfold sel; destruct (cf_exclude_nan c); auto; apply present_length; auto).
  assert (Nz : sel z <> []).
  { unfold sel. destruct (cf_exclude_nan c); [apply present_nonempty; auto|]. destruct z; discriminate. }
  assert (LC : length (combine (sel x) (sel y)) = length (sel z)) by (rewrite combine_length, Lx, Ly; apply Nat.min_id).
  assert (ET : new_tree (combine (sel x) (sel y)) = Ok {| pts := combine (sel x) (sel y); cache := None |}).
  { unfold new_tree. rewrite finite_combine by auto. destruct (combine (sel x) (sel y)); auto. destruct (sel z); [congruence|discriminate]. }
  rewrite ET. cbn [bind]. unfold tree_call. cbn [pts cache]. rewrite LC, Nat.eqb_refl. cbn [negb].
  destruct (Nat.leb_spec (cf_nnear c) 1); [lia|].
  destruct (concat_rect (n_nan : O) cols xg rows (proj1 RX) (proj2 RX)) as [L1 G1].
  destruct (concat_rect (n_nan : O) cols yg rows (proj1 RY) (proj2 RY)) as [L2 G2].
  assert (LQ : length (combine (concat xg) (concat yg)) = rows * cols) by (rewrite combine_length, L1, L2; apply Nat.min_id).
  rewrite finite_combine by auto.
  destruct (combine (concat xg) (concat yg)) as [|q0 ql] eqn:EQ; [simpl in LQ; nia|]. rewrite <- EQ in *. cbn [snd bind].
  unfold numba_idw_loop. rewrite !map_length, LQ, Nat.eqb_refl. eexists. split; [reflexivity|].
  set (vals := map (idw_one L (sel z) (cf_p c)) (map (fun q => query (combine (sel x) (sel y)) q (cf_nnear c) zero (cf_max_distance c)) (combine (concat xg) (concat yg)))).
  assert (LV : length vals = rows * cols) by (unfold vals; rewrite !map_length; auto).
  split.
  - split; [apply reshape_length|]. intros r Hin. apply In_get with (d := []) in Hin. destruct Hin as (i & Hi & <-). rewrite reshape_length in Hi.
    apply (reshape_get (n_nan : O) rows cols vals i 0); auto.
  - intros i j Hi Hj. destruct (reshape_get (n_nan : O) rows cols vals i j LV Hi Hj) as [_ ->]. unfold vals.
    assert (HB : i * cols + j < rows * cols) by nia.
    rewrite get_map with (d := []) by (rewrite !map_length, LQ; auto).
    rewrite get_map with (d := (n_nan, n_nan)) by (rewrite LQ; auto).
    f_equal. f_equal. unfold get at 1. rewrite combine_nth by lia. fold (get (n_nan : O) (concat xg) (i * cols + j)) (get (n_nan : O) (concat yg) (i * cols + j)).
    rewrite G1, G2 by auto. reflexivity.
Qed.

Lemma finite_combine_inv x : forall y : list O, length x = length y -> forallb finite_pt (combine x y) = true -> all_finite x /\ all_finite y.
Proof.
  induction x as [|a x IH]; intros [|b y] E H; try discriminate; [split; intros ? []|].
  cbn [combine forallb] in H. apply andb_true_iff in H as [H1 H2]. destruct (IH y ltac:(simpl in E; lia) H2) as [F1 F2].
  unfold finite_pt in H1. cbn [fst snd] in H1. apply andb_true_iff in H1 as [A B]. apply negb_true_iff, orb_false_iff in A, B.
  split; intros v [<-|Hv]; auto.
Qed.

Lemma interp_invalid c x y z rows cols xg yg :
  length x = length z -> length y = length z -> forallb n_isnan z = false ->
  rectangular rows cols xg -> rectangular rows cols yg -> 0 < rows -> 0 < cols ->
  let sel := fun a => if cf_exclude_nan c then present z a else a in
  cf_nnear c < 2 \/ ~ all_finite (sel x) \/ ~ all_finite (sel y) \/ ~ all_finite (concat xg) \/ ~ all_finite (concat yg) ->
  snd (interp_call L query (new_interp c) x y z rows cols xg yg) = Err ValueError.
Proof.
  intros Hx Hy HN RX RY Hr Hc sel Bad.
  unfold interp_call. rewrite Hx, Hy, Nat.eqb_refl. cbn [andb negb]. rewrite HN.
  unfold interpol_func. cbn [new_interp conf built]. cbv zeta.
  assert (ES : forall a, length a = length z -> (if cf_exclude_nan c then mask_select n_nan (map (fun v => negb (n_isnan v)) z) a else a) = sel a).
  { intros a Ha. unfold sel. destruct (cf_exclude_nan c); auto. apply mask_select_present; auto. }
  rewrite !ES by auto.
  assert (Lx : length (sel x) = length (sel z)) by (unfold sel; destruct (cf_exclude_nan c); auto; apply present_length; auto).
  assert (Ly : length (sel y) = length (sel z)) by (unfold sel; destruct (cf_exclude_nan c); auto; apply present_length; auto).
  assert (LC : length (combine (sel x) (sel y)) = length (sel z)) by (rewrite combine_length, Lx, Ly; apply Nat.min_id).
  destruct (concat_rect (n_nan : O) cols xg rows (proj1 RX) (proj2 RX)) as [L1 G1].
  destruct (concat_rect (n_nan : O) cols yg rows (proj1 RY) (proj2 RY)) as [L2 G2].
  unfold new_tree. destruct (combine (sel x) (sel y)) as [|p0 pl] eqn:EP; [reflexivity|]. rewrite <- EP in *. clear p0 pl EP.
  destruct (forallb finite_pt (combine (sel x) (sel y))) eqn:F1; [|reflexivity].
  apply finite_combine_inv in F1 as [Fx Fy]; [|congruence].
  cbn [bind]. unfold tree_call. cbn [pts cache]. rewrite LC, Nat.eqb_refl. cbn [negb].
  destruct (Nat.leb_spec (cf_nnear c) 1); [reflexivity|].
  destruct (combine (concat xg) (concat yg)) as [|q0 ql] eqn:EQ; [reflexivity|]. rewrite <- EQ in *. clear q0 ql EQ.
  destruct (forallb finite_pt (combine (concat xg) (concat yg))) eqn:F2; [|reflexivity].
  apply finite_combine_inv in F2 as [Fxg Fyg]; [|congruence]. exfalso. destruct Bad as [B|[B|[B|[B|B]]]]; auto. lia.
Qed.

(** the shape of any result *)
Lemma interp_shape (s : interp O) x y z rows cols xg yg zg :
  snd (interp_call L query s x y z rows cols xg yg) = Ok zg -> rectangular rows cols zg.
Proof.
  unfold interp_call. destruct (negb _); [discriminate|]. destruct (forallb n_isnan z).
  - intros H. injection H as <-. split; [apply repeat_length|]. intros r Hr. apply repeat_spec in Hr. subst. apply repeat_length.
  - destruct (interpol_func L query s x y z (concat xg) (concat yg)) as [s' [v|]]; [|discriminate]. cbn [snd bind].
    destruct (Nat.eqb_spec (length v) (rows * cols)) as [E|]; [|discriminate]. intros H. injection H as <-.
    split; [apply reshape_length|]. intros r Hin. apply In_get with (d := []) in Hin. destruct Hin as (i & Hi & <-). rewrite reshape_length in Hi.
    destruct (Nat.eq_dec cols 0) as [->|].
    + clear. revert v i. induction rows; intros v i; simpl; [destruct i; auto|]. destruct i; [reflexivity|]. apply (IHrows (skipn 0 v) i).
    + apply (reshape_get (n_nan : O) rows cols v i 0); auto; lia.
Qed.

Lemma interp_all_nan (s : interp O) x y z rows cols xg yg : length x = length z -> length y = length z -> (forall v, In v z -> n_isnan v = true) ->
  interp_call L query s x y z rows cols xg yg = (s, Ok (repeat (repeat n_nan cols) rows)).
Proof.
  intros Hx Hy H. unfold interp_call. rewrite Hx, Hy, Nat.eqb_refl. cbn [andb negb].
  rewrite (proj2 (forallb_forall n_isnan z)) by auto. reflexivity.
Qed.

Lemma interp_lengths (s : interp O) x y z rows cols xg yg : length x <> length y \/ length y <> length z ->
  interp_call L query s x y z rows cols xg yg = (s, Err AssertionError).
Proof.
  intros H. unfold interp_call. destruct (Nat.eqb_spec (length x) (length y)), (Nat.eqb_spec (length y) (length z)); auto. lia.
Qed.
End Any.

(** ** binary64: zeros of either sign are interchangeable *)
Lemma f_eqb_cases (x y : F64) : n_eqb x y = true -> x = y \/ exists s s', x = B754_zero s /\ y = B754_zero s'.
Proof.
  intros H. change (Beqb (x : f64) (y : f64) = true) in H.
  destruct (is_finite x) eqn:Fx.
  - assert (Fy : is_finite y = true) by (destruct x as [s|s| |s m e Hx], y as [t|t| |t m1 e1 Hy]; auto; try discriminate; destruct s, t; discriminate).
    rewrite Beqb_correct in H by auto. assert (E : B2R x = B2R y) by (revert H; case Raux.Req_bool_spec; auto; discriminate).
    destruct (is_finite_strict x) eqn:Sx.
    + left. apply B2R_inj; auto. destruct y; auto. exfalso. simpl in E.
      destruct x as [s0|s0| |s0 m0 e0 H0]; try discriminate. cbn [B2R] in E. apply Float_prop.eq_0_F2R in E. destruct s0; discriminate.
    + destruct x; try discriminate. destruct y as [s'|s'| |s' m e Hy]; try discriminate; eauto.
      exfalso. cbn [B2R] in E. symmetry in E. apply Float_prop.eq_0_F2R in E. destruct s'; discriminate.
  - left. destruct x as [s|s| |s m e Hx], y as [s'|s'| |s' m' e' Hy]; try discriminate; auto;
      destruct s, s'; try discriminate; auto.
Qed.

Lemma f_sq_sub (a a' b b' : F64) : n_eqb a a' = true -> n_eqb b b' = true ->
  n_mul (n_sub a b) (n_sub a b) = n_mul (n_sub a' b') (n_sub a' b').
Proof.
  intros Ha Hb. apply f_eqb_cases in Ha, Hb.
  destruct Ha as [<-|(s & s' & -> & ->)], Hb as [<-|(t & t' & -> & ->)]; auto.
  - destruct a as [s|s| |s m e Hx]; try reflexivity. destruct s, t, t'; reflexivity.
  - destruct b as [t|t| |t m e Hx]; try reflexivity. destruct s, s', t; reflexivity.
  - destruct s, s', t, t'; reflexivity.
Qed.

Lemma pdist_eqb (a a' b b' : F64 * F64) : pts_equal [a] [a'] = true -> pts_equal [b] [b'] = true -> pdist a b = pdist a' b'.
Proof.
  unfold pts_equal. cbn [map]. rewrite !array_equal_cons. intros Ha Hb. cbn in Ha, Hb. rewrite !andb_true_r in *.
  apply andb_prop in Ha, Hb. destruct Ha, Hb. unfold pdist. cbv zeta. rewrite (f_sq_sub (fst a) (fst a') (fst b) (fst b')), (f_sq_sub (snd a) (snd a') (snd b) (snd b')) by auto. reflexivity.
Qed.

Lemma pts_equal_get (X : list (F64 * F64)) : forall X' i, pts_equal X X' = true -> i < length X ->
  pts_equal [get (n_nan, n_nan) X i] [get (n_nan, n_nan) X' i] = true.
Proof.
  induction X as [|x X IH]; intros [|y X'] i H Hi; try (apply pts_equal_length in H; discriminate); [simpl in Hi; lia|].
  apply pts_equal_cons in H. destruct H as [Hx H]. destruct i as [|i]; auto. apply (IH X' i H). apply Nat.succ_lt_mono. exact Hi.
Qed.

Lemma brute_respects64 : query_respects (brute_query (O := F64)).
Proof.
  intros X X' q q' k eps eps' ub HX Hq _. unfold brute_query. rewrite <- (pts_equal_length _ _ HX).
  set (d := fun i => pdist q (get (n_nan, n_nan) X i)). set (d' := fun i => pdist q' (get (n_nan, n_nan) X' i)).
  assert (E : forall i, i < length X -> d i = d' i) by (intros i Hi; apply pdist_eqb; auto; apply pts_equal_get; auto).
  set (f1 := filter (fun i => below ub (d i)) (seq 0 (length X))). set (f2 := filter (fun i => below ub (d' i)) (seq 0 (length X))).
  assert (EF : f1 = f2) by (apply filter_ext_in; intros i Hi; apply in_seq in Hi; rewrite E by lia; auto).
  assert (IF : forall i, In i f1 -> i < length X) by (intros i Hi; apply filter_In in Hi; destruct Hi as [Hi _]; apply in_seq in Hi; lia).
  assert (ES : sort_by d f1 = sort_by d' f2) by (rewrite <- EF; apply sort_by_ext; auto).
  change (map (fun i => (d i, i)) (firstn k (sort_by d f1)) ++ repeat (n_div one zero, length X) (k - length (firstn k (sort_by d f1))) =
          map (fun i => (d' i, i)) (firstn k (sort_by d' f2)) ++ repeat (n_div one zero, length X) (k - length (firstn k (sort_by d' f2)))).
  rewrite <- ES. f_equal. apply map_ext_in. intros i Hi. rewrite E; auto. apply IF.
  assert (P : forall m x, In x (sort_by d m) -> In x m).
  { assert (P1 : forall m y x, In x (insert_by d y m) -> x = y \/ In x m).
    { induction m as [|w m IHm]; cbn [insert_by]; intros y x Hx.
      - destruct Hx as [<-|[]]; auto.
      - destruct (n_leb (d y) (d w)); destruct Hx as [<-|Hx]; auto; [right; left; auto|].
        apply IHm in Hx. destruct Hx; [auto|right; right; auto]. }
    induction m; simpl; auto. intros x Hx. apply P1 in Hx. destruct Hx; auto. }
  apply P. rewrite <- (firstn_skipn k). apply in_or_app; auto.
Qed.

(** ** exact arithmetic: consequences *)
From Coq Require Import Reals Lra.
From Verif Require Import RealStat.

Lemma idw_summary query (X qs : list rpt) (z : list R) k (p : R) ub t :
  query_ok query -> new_tree (map ofP X) = Ok t -> length z = length X -> qs <> [] -> 2 <= k ->
  exists v, snd (tree_call XRm query t (map ofP qs) (ofR z) k zero (XFin p : XR) (ofU ub)) = Ok v /\ length v = length qs /\
  forall j, j < length qs -> exists used,
    is_nearest (dist_to X (get (0%R, 0%R) qs j)) (length X) k ub used /\
    is_idw (dist_to X (get (0%R, 0%R) qs j)) z p used (get (n_nan : XR) v j) /\
    (used = [] <-> get (n_nan : XR) v j = n_nan) /\
    (used = [] <-> forall i, i < length X -> ~ in_range (dist_to X (get (0%R, 0%R) qs j)) ub i) /\
    forall lo hi, (forall i, In i used -> (lo <= rget z i <= hi)%R) -> used <> [] ->
      exists r, get (n_nan : XR) v j = (XFin r : XR) /\ (lo <= r <= hi)%R.
Proof.
  intros Q HT HZ Hq Hk. destruct (tree_call_exact query X qs z k p ub t Q HT HZ Hq Hk) as (v & E & Lv & H).
  exists v. split; auto. split; auto. intros j Hj. destruct (H j Hj) as (used & N & I). exists used. split; auto. split; auto.
  assert (B : forall lo hi, (forall i, In i used -> (lo <= rget z i <= hi)%R) -> used <> [] ->
      exists r, get (n_nan : XR) v j = (XFin r : XR) /\ (lo <= r <= hi)%R).
  { intros lo hi Hb Hn. eapply is_idw_bounds; eauto. }
  split; [|split; auto].
  - split; intros Hu.
    + subst used. exact I.
    + destruct used as [|i0 u]; auto. exfalso.
      assert (exists r, get (n_nan : XR) v j = (XFin r : XR)).
      { unfold is_idw in I. destruct (Rlt_dec _ _); eauto. destruct I as (r & -> & _). eauto. }
      destruct H0 as (r & Er). rewrite Er in Hu. discriminate.
  - split.
    + intros -> i Hi Hr. destruct (nn_rest _ _ _ _ _ N i Hi (fun F => F) Hr) as [Hl _]. simpl in Hl. lia.
    + intros Ha. destruct used as [|i0 u]; auto. exfalso.
      destruct (nn_range _ _ _ _ _ N i0 (or_introl eq_refl)) as [H1 H2]. exact (Ha i0 H1 H2).
Qed.

Lemma idw_hit query (X qs : list rpt) (z : list R) k (p : R) ub t :
  query_ok query -> new_tree (map ofP X) = Ok t -> length z = length X -> qs <> [] -> 2 <= k ->
  exists v, snd (tree_call XRm query t (map ofP qs) (ofR z) k zero (XFin p : XR) (ofU ub)) = Ok v /\ length v = length qs /\
  forall j i, j < length qs -> i < length X ->
    let d := dist_to X (get (0%R, 0%R) qs j) in
    (d i < 1 / 10000000000)%R -> in_range d ub i ->
    exists i0, i0 < length X /\ (forall i', i' < length X -> (d i0 <= d i')%R) /\ get (n_nan : XR) v j = (XFin (rget z i0) : XR).
Proof.
  intros Q HT HZ Hq Hk. destruct (tree_call_exact query X qs z k p ub t Q HT HZ Hq Hk) as (v & E & Lv & H).
  exists v. split; auto. split; auto. intros j i Hj Hi d Hd Hr. destruct (H j Hj) as (used & N & I). fold d in N, I.
  destruct used as [|i0 u].
  - exfalso. destruct (nn_rest _ _ _ _ _ N i Hi (fun F => F) Hr) as [Hl _]. simpl in Hl. lia.
  - assert (Hmin : forall i', i' < length X -> in_range d ub i' -> (d i0 <= d i')%R).
    { intros i' Hi' Hr'. destruct (in_dec Nat.eq_dec i' (i0 :: u)) as [Hin|Hin].
      - apply In_get with (d := 0%nat) in Hin. destruct Hin as (b & Hb & <-). apply (nn_sorted _ _ _ _ _ N 0 b); lia.
      - destruct (nn_rest _ _ _ _ _ N i' Hi' Hin Hr') as [_ Hl]. apply Hl. left; auto. }
    exists i0. split; [apply (nn_range _ _ _ _ _ N i0); left; auto|]. split.
    + intros i' Hi'. destruct ub as [ub|]; [|apply Hmin; simpl; auto]. cbn in Hr.
      destruct (Rlt_le_dec (d i') ub); [apply Hmin; auto|]. specialize (Hmin i Hi Hr). lra.
    + unfold is_idw in I. destruct (Rlt_dec (d i0) (1 / 10000000000)) as [|Hn]; auto. exfalso. specialize (Hmin i Hi Hr). lra.
Qed.

Lemma idw_one_agree {O : numops} (L : libm O) (z z' : list O) p row :
  length z = length z' -> (forall e, In e row -> snd e < length z -> nget z (snd e) = nget z' (snd e)) ->
  idw_one L z p row = idw_one L z' p row.
Proof.
  intros HL HA. unfold idw_one. rewrite <- HL.
  assert (HF : forall e, In e (filter (fun e => Nat.ltb (snd e) (length z)) row) -> nget z (snd e) = nget z' (snd e)).
  { intros e He. apply filter_In in He. destruct He as [H1 H2]. apply Nat.ltb_lt in H2. auto. }
  set (fr := filter (fun e => Nat.ltb (snd e) (length z)) row) in *. clearbody fr.
  destruct fr as [|[d0 i0] l]; auto. destruct (n_ltb d0 (n_lit 1 10)); [apply (HF (d0, i0)); left; auto|].
  do 2 f_equal. apply map_ext_in. auto.
Qed.

Lemma idw_uses_nearest query (X qs : list rpt) k ub t :
  query_ok query -> new_tree (map ofP X) = Ok t -> qs <> [] -> 2 <= k ->
  forall j, j < length qs -> exists used,
    is_nearest (dist_to X (get (0%R, 0%R) qs j)) (length X) k ub used /\
    forall (p : XR) (z z' : list XR) v v', length z = length X -> length z' = length X ->
      (forall i, In i used -> nget z i = nget z' i) ->
      snd (tree_call XRm query t (map ofP qs) z k zero p (ofU ub)) = Ok v ->
      snd (tree_call XRm query t (map ofP qs) z' k zero p (ofU ub)) = Ok v' ->
      get (n_nan : XR) v j = get (n_nan : XR) v' j.
Proof.
  intros Q HT Hq Hk j Hj. destruct (Q X (get (0%R, 0%R) qs j) k ub) as (used & pad & N & E). exists used. split; auto.
  destruct (new_tree_inv query (map ofP X) t None HT) as (_ & C & P & _).
  assert (G : forall (p : XR) (z v : list XR), length z = length X -> snd (tree_call XRm query t (map ofP qs) z k zero p (ofU ub)) = Ok v ->
     get (n_nan : XR) v j = idw_one XRm z p (query (map ofP X) (ofP (get (0%R, 0%R) qs j)) k zero (ofU ub))).
  { intros p z v Hz. unfold tree_call. rewrite C, P, map_length, Hz, Nat.eqb_refl. cbn [negb]. destruct (Nat.leb_spec k 1); [lia|].
    rewrite finite_ofP. destruct (map ofP qs) as [|q0 ql] eqn:EQ; [destruct qs; [congruence|discriminate EQ]|]. rewrite <- EQ. cbn [snd].
    intros Ev. injection Ev as <-. unfold numba_idw_loop. rewrite get_map with (d := []) by (rewrite !map_length; auto).
    rewrite get_map with (d := ofP (0%R, 0%R)) by (rewrite !map_length; auto). rewrite get_map with (d := (0%R, 0%R)) by auto. reflexivity. }
  intros p z z' v v' Hz Hz' HA Hv Hv'. rewrite (G p z v Hz Hv), (G p z' v' Hz' Hv'), E.
  apply idw_one_agree; [congruence|]. intros e He Hlt. apply in_app_or in He. destruct He as [He|He].
  - apply in_map_iff in He. destruct He as (i & <- & Hi). apply HA; auto.
  - apply repeat_spec in He. subst e. cbn [snd] in Hlt. lia.
Qed.

(** ** a hit returns the stored value, in any arithmetic *)
Lemma idw_one_hit {O : numops} (L : libm O) (z : list O) p d i row :
  i < length z -> n_ltb d (n_lit 1 10) = true -> idw_one L z p ((d, i) :: row) = nget z i.
Proof. intros Hi Hd. unfold idw_one. cbn [filter snd]. apply Nat.ltb_lt in Hi. rewrite Hi, Hd. reflexivity. Qed.
