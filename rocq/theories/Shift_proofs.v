From Coq Require Import List ZArith Bool String Lia Arith Reals Lra.
From Flocq Require Import Core.
From Verif Require Import Base Num NumF64 NumList NpOps Libm Libm64 RealSpec Median Baseline_model Baseline_spec Baseline_proofs Baseline_proofs2
  Schleiss_model KR_model KR_spec NearbyRain_model NearbyWetdry_model MinMax_model Chain_model Chain_spec Chain_proofs Shift_spec.
Import ListNotations.
Local Open Scope nat_scope.
Local Notation length := List.length.

Section Shift.
Variable c : R.
Definition sh (x : XR) : XR := n_add x (XFin c : XR).

Lemma off_sh l : off c l = map sh l. Proof. reflexivity. Qed.
Lemma off_length l : length (off c l) = length l. Proof. apply map_length. Qed.

Lemma sh_fin r : sh (XFin r) = (XFin (r + c) : XR). Proof. reflexivity. Qed.
Lemma sh_nan : sh XNaN = (XNaN : XR). Proof. reflexivity. Qed.
Lemma sh_isnan x : n_isnan (sh x) = n_isnan x. Proof. destruct x; reflexivity. Qed.

Lemma sh_ltb x y : n_ltb (sh x) (sh y) = n_ltb x y.
Proof.
  destruct x as [| |a|], y as [| |b|]; try reflexivity.
  change (xltb (XFin (a + c)) (XFin (b + c)) = xltb (XFin a) (XFin b)). simpl. xcases; auto; lra.
Qed.
Lemma sh_leb x y : n_leb (sh x) (sh y) = n_leb x y.
Proof.
  destruct x as [| |a|], y as [| |b|]; try reflexivity.
  change (xleb (XFin (a + c)) (XFin (b + c)) = xleb (XFin a) (XFin b)). simpl. xcases; auto; lra.
Qed.
Lemma sh_sub x y : n_sub (sh x) (sh y) = n_sub x y.
Proof.
  destruct x as [| |a|], y as [| |b|]; try reflexivity.
  change (XFin (a + c + - (b + c)) = XFin (a + - b)). f_equal. ring.
Qed.
Lemma XR_add x y : (n_add (x : XR) y : XR) = xadd x y. Proof. reflexivity. Qed.
Lemma XR_div x y : (n_div (x : XR) y : XR) = xdiv x y. Proof. reflexivity. Qed.

Lemma xdiv_finr r k : (0 < k)%R -> xdiv (XFin r) (XFin k) = XFin (r / k).
Proof. intros. simpl. rewrite Req_bool_false by lra. reflexivity. Qed.
Lemma xdiv_pinf k : (0 < k)%R -> xdiv XPInf (XFin k) = XPInf.
Proof. intros. simpl. xcases; auto; try lra. Qed.
Lemma xdiv_ninf k : (0 < k)%R -> xdiv XNInf (XFin k) = XNInf.
Proof. intros. simpl. xcases; auto; try lra. Qed.

(** dividing a sum of [k] shifted terms *)
Lemma div_shift x k : (0 < k)%R -> xdiv (xadd x (XFin (k * c))) (XFin k) = xadd (xdiv x (XFin k)) (XFin c).
Proof.
  intros Hk. destruct x as [| |a|].
  - reflexivity.
  - change (xadd XNInf (XFin (k * c))) with XNInf. rewrite xdiv_ninf by auto. reflexivity.
  - change (xadd (XFin a) (XFin (k * c))) with (XFin (a + k * c)). rewrite !xdiv_finr by auto.
    simpl. f_equal. field. lra.
  - change (xadd XPInf (XFin (k * c))) with XPInf. rewrite xdiv_pinf by auto. reflexivity.
Qed.

Lemma sum_shift l : forall (x : XR) k, fold_left n_add (map sh l) (n_add x (XFin (k * c) : XR)) =
  n_add (fold_left n_add l x) (XFin ((k + INR (length l)) * c) : XR).
Proof.
  induction l as [|y l IH]; intros x k.
  - cbn [map fold_left Datatypes.length INR]. f_equal. f_equal. ring.
  - cbn [map fold_left].
    replace (n_add (n_add x (XFin (k * c) : XR)) (sh y)) with (n_add (n_add x y) (XFin ((k + 1) * c) : XR)).
    + rewrite IH. change (length (y :: l)) with (Datatypes.S (length l)). rewrite S_INR. f_equal. f_equal. ring.
    + destruct x as [| |a|], y as [| |b|]; try reflexivity.
      change (XFin (a + b + (k + 1) * c) = XFin (a + k * c + (b + c))). f_equal. ring.
Qed.

Lemma mean_shift (l : list XR) : n_mean (map sh l) = sh (n_mean l).
Proof.
  unfold n_mean, n_sum. rewrite map_length.
  destruct l as [|y l].
  - assert (Q : xdiv (XFin 0) (XFin 0) = XNaN) by (simpl; rewrite Req_bool_true, Rcompare_Eq by auto; reflexivity).
    transitivity (xdiv (XFin 0) (XFin 0)); [reflexivity|]. transitivity (sh (xdiv (XFin 0) (XFin 0))); [|reflexivity].
    rewrite Q. reflexivity.
  - set (k := y :: l). pose proof (sum_shift k (zero : XR) 0) as Q.
    replace (n_add (zero : XR) (XFin (0 * c) : XR)) with (zero : XR) in Q by (change (XFin 0 = XFin (0 + 0 * c)); f_equal; ring).
    change (@num XR) with xr in *. rewrite Q. clear Q.
    change (n_ofZ (Z.of_nat (length k)) : XR) with (XFin (IZR (Z.of_nat (length k)))). rewrite <- INR_IZR_INZ.
    replace (0 + INR (length k))%R with (INR (length k)) by ring.
    apply div_shift. apply (lt_INR 0). unfold k. simpl. lia.
Qed.

Lemma half_shift x y : n_div (n_add (sh x) (sh y)) (n_ofZ 2) = sh (n_div (n_add x y) (n_ofZ 2)).
Proof.
  replace (n_add (sh x) (sh y)) with (n_add (n_add x y) (XFin (2 * c) : XR)).
  - apply (div_shift (xadd x y) 2). lra.
  - destruct x as [| |a|], y as [| |b|]; try reflexivity.
    change (XFin (a + b + 2 * c) = XFin (a + c + (b + c))). f_equal. ring.
Qed.

Lemma map2_sub_shift l m : map2 n_sub (map sh l) (map sh m) = map2 n_sub l m.
Proof.
  revert m. induction l as [|x l IH]; intros [|y m]; auto.
  unfold map2 in *. simpl. rewrite IH. f_equal. apply sh_sub.
Qed.

Lemma bcast2_sub_shift l m : bcast2 n_sub (map sh l) (map sh m) = bcast2 n_sub l m.
Proof.
  unfold bcast2. rewrite !map_length, map2_sub_shift. destruct (Nat.eqb _ _); auto.
  assert (H1 : forall x m, map (n_sub (sh x)) (map sh m) = map (n_sub x) m).
  { intros. rewrite map_map. apply map_ext. intros; apply sh_sub. }
  assert (H2 : forall y m, map (fun x => n_sub x (sh y)) (map sh m) = map (fun x => n_sub x y) m).
  { intros. rewrite map_map. apply map_ext. intros; apply sh_sub. }
  destruct l as [|x [|x' l]]; [destruct m as [|y [|y' m]]; auto|exact (f_equal Ok (H1 x m))|].
  destruct m as [|y [|y' m]]; auto. exact (f_equal Ok (H2 y (x :: x' :: l))).
Qed.

Lemma slice_map {A B} (f : A -> B) i j l : slice i j (map f l) = map f (slice i j l).
Proof. unfold slice. rewrite skipn_map, firstn_map. reflexivity. Qed.

(** ** constant baseline *)
Lemma baseline_shift trsl wet n : baseline_constant (off c trsl) wet n = (do b <- baseline_constant trsl wet n; Ok (off c b)).
Proof.
  destruct (baseline_constant trsl wet n) as [b|e] eqn:E.
  - simpl. pose proof (baseline_constant_ok _ _ _ _ E) as (Hn & Hw & _).
    destruct (constant_rec _ _ _ _ E) as [LB RB].
    destruct (baseline_constant (off c trsl) wet n) as [b'|e'] eqn:E'.
    2: { unfold baseline_constant in E, E'. rewrite off_length in E'. destruct (Nat.ltb _ _); try discriminate.
         destruct (Nat.eqb _ _); discriminate. }
    destruct (constant_rec _ _ _ _ E') as [LB' RB']. rewrite off_length in LB', RB'.
    f_equal. apply get_ext with (d := (n_nan : XR)); [rewrite off_length; congruence|].
    rewrite LB'. intros i. induction i as [i IH] using lt_wf_ind. intros Hi.
    rewrite off_sh. rewrite get_map with (d := (n_nan : XR)) by lia.
    destruct (RB i Hi) as [A1 A2]. destruct (RB' i Hi) as [B1 B2]. unfold nget in *.
    assert (T : get (n_nan : XR) (off c trsl) i = sh (get n_nan trsl i)) by (rewrite off_sh; apply get_map; auto).
    destruct (le_lt_dec n i).
    + rewrite B2, A2 by auto. destruct (get false (map n_truthy wet) i); [|exact T].
      destruct (get false (map n_truthy wet) (i - 1)).
      * rewrite IH by lia. rewrite off_sh. apply get_map. lia.
      * rewrite <- mean_shift. f_equal. rewrite <- slice_map.
        apply get_ext with (d := (n_nan : XR)); unfold slice; [rewrite !firstn_length, !skipn_length, map_length; lia|].
        intros j Hj. rewrite firstn_length, skipn_length in Hj. unfold get.
        rewrite !nth_firstn_lt, !nth_skipn_plus by lia. specialize (IH (i - n + j)). unfold get in IH. rewrite off_sh in IH. apply IH; lia.
    + rewrite B1, A1 by auto. exact T.
  - cbn [bind]. rewrite <- E. unfold baseline_constant in *. rewrite off_length.
    destruct (Nat.ltb _ _); [reflexivity|]. destruct (Nat.eqb _ _); [reflexivity|discriminate].
Qed.

Lemma chain_shift L cubic clipped trsl wet n m dt tau (k : kr_args XR) :
  chain L cubic clipped (off c trsl) wet n m dt tau k = chain L cubic clipped trsl wet n m dt tau k.
Proof.
  unfold chain. rewrite baseline_shift. destruct (baseline_constant trsl wet n) as [b|]; auto. cbn [bind].
  unfold attenuation_of. rewrite !off_sh, map2_sub_shift.
  unfold waa_schleiss_2013, numba_waa_schleiss_2013. rewrite !map_length, map2_sub_shift. reflexivity.
Qed.

(** ** nearby link approach *)
Lemma not_nan_shift l : not_nan (map sh l) = map sh (not_nan l).
Proof.
  induction l as [|x l IH]; auto. unfold not_nan in *. cbn [map filter]. rewrite sh_isnan.
  destruct (negb (n_isnan x)); cbn [map]; rewrite IH; auto.
Qed.
Lemma trailing_shift w i l : trailing w i (map sh l) = map sh (trailing w i l).
Proof. unfold trailing. apply slice_map. Qed.

Lemma rolling_shift (agg : list XR -> XR) w k l :
  (forall v, v <> [] -> agg (map sh v) = sh (agg v)) ->
  rolling agg w k (map sh l) = (do r <- rolling agg w k l; Ok (map sh r)).
Proof.
  intros H. unfold rolling. rewrite !map_length. destruct (rolling_ok w k (length l)) eqn:E; auto.
  apply rolling_ok_true in E. cbn [bind]. f_equal. rewrite map_map. apply map_ext. intros i.
  rewrite trailing_shift, not_nan_shift, map_length. cbv zeta.
  destruct (Nat.ltb_spec (length (not_nan (trailing w i l))) k); [reflexivity|].
  apply H. intros Q. rewrite Q in *. simpl in *. lia.
Qed.

Lemma np_fold_shift lt : (forall x y, lt (sh x) (sh y) = lt x y) ->
  forall l x, np_fold lt (sh x) (map sh l) = sh (np_fold lt x l).
Proof.
  intros H. unfold np_fold. induction l as [|y l IH]; intros x; auto. cbn [map fold_left].
  rewrite !sh_isnan, H. destruct (n_isnan x); [apply IH|]. destruct (n_isnan y); [apply IH|].
  destruct (lt y x); apply IH.
Qed.
Lemma np_min_shift l : np_min (map sh l) = (do m <- np_min l; Ok (sh m)).
Proof. destruct l as [|x l]; auto. simpl. f_equal. apply np_fold_shift. intros; apply sh_ltb. Qed.
Lemma amax_shift v : v <> [] -> amax (map sh v) = sh (amax v).
Proof.
  intros H. destruct v as [|x l]; [congruence|]. unfold amax. simpl. apply np_fold_shift. intros; apply sh_ltb.
Qed.

Lemma insert_shift x l : insert (sh x) (map sh l) = map sh (insert x l).
Proof. induction l as [|y l IH]; auto. cbn [map insert]. rewrite sh_leb. destruct (n_leb x y); auto. cbn [map]. rewrite IH. auto. Qed.
Lemma sort_shift l : sort (map sh l) = map sh (sort l).
Proof. induction l as [|x l IH]; auto. cbn [map sort fold_right]. unfold sort in IH. rewrite IH. apply insert_shift. Qed.
Lemma median_shift v : v <> [] -> median (map sh v) = sh (median v).
Proof.
  intros H. unfold median. rewrite sort_shift. unfold middle. rewrite map_length.
  assert (0 < length (sort v)) as Hl by (rewrite sort_length; destruct v; [congruence|simpl; lia]).
  set (s := sort v) in *. assert (length s / 2 < length s) by (apply Nat.div_lt; lia).
  destruct (Nat.odd (length s)).
  - apply get_map. auto.
  - destruct (Nat.eqb_spec (length s) 0); [lia|].
    rewrite !(get_map sh (n_nan : XR) (n_nan : XR)) by lia. apply half_shift.
Qed.

Lemma reference_shift pmin pmax wet n mp :
  nearby_determine_reference_level (off c pmin) (off c pmax) wet n mp =
  (do p <- nearby_determine_reference_level pmin pmax wet n mp; Ok (off c p)).
Proof.
  unfold nearby_determine_reference_level. rewrite !off_sh. rewrite <- rolling_shift by (intros; apply median_shift; auto).
  f_equal. revert pmax. generalize (map (fun w : XR => if n_isnan w then (n_nan : XR) else if n_eqb w zero then one else zero) wet).
  revert pmin. intros pmin d. revert pmin. induction d as [|x d IH]; intros [|a pmin] [|b pmax]; auto.
  unfold map2 in *. cbn [map combine fst snd]. cbn [map combine fst snd] in IH. rewrite IH. f_equal. cbn [fst snd].
  rewrite half_shift. destruct (n_eqb x one); reflexivity.
Qed.

Definition wh (b : list bool) (x y : list XR) : list XR := map2 (fun (c : bool) (p : XR * XR) => if c then fst p else snd p) b (combine x y).
Lemma correct_eq (pmin pmax wet pref : list XR) : nearby_correct_received_signals pmin pmax wet pref =
  let m := wh (map2 andb (map2 n_ltb pmin pref) (map (fun w => n_eqb w one) wet)) pmin pref in
  (m, wh (map2 andb (map2 n_ltb m pref) (map2 n_ltb pmax pref)) pmax pref).
Proof. reflexivity. Qed.

Lemma correct_shift pmin pmax wet pref :
  nearby_correct_received_signals (off c pmin) (off c pmax) wet (off c pref) =
  (off c (fst (nearby_correct_received_signals pmin pmax wet pref)), off c (snd (nearby_correct_received_signals pmin pmax wet pref))).
Proof.
  assert (W : forall b x y, wh b (map sh x) (map sh y) = map sh (wh b x y)).
  { unfold wh, map2. induction b as [|b0 b IH]; intros [|x0 x] [|y0 y]; auto.
    cbn [map combine fst snd]. rewrite <- IH. destruct b0; reflexivity. }
  assert (T : forall x y, map2 n_ltb (map sh x) (map sh y) = map2 n_ltb x y).
  { unfold map2. induction x as [|x0 x IH]; intros [|y0 y]; auto. cbn [map combine fst snd]. rewrite IH, sh_ltb. auto. }
  rewrite !correct_eq. cbv zeta. cbn [fst snd]. rewrite !off_sh. rewrite !T, !W, !T. reflexivity.
Qed.

Lemma retrieval_shift L cubic pref cmin cmax F len f pol a b ap waa alpha thr :
  nearby_rainfall_retrival L cubic (off c pref) (off c cmin) (off c cmax) F len f pol a b ap waa alpha thr =
  nearby_rainfall_retrival L cubic pref cmin cmax F len f pol a b ap waa alpha thr.
Proof. unfold nearby_rainfall_retrival. rewrite !off_sh, !bcast2_sub_shift. reflexivity. Qed.
End Shift.

(** ** classification: every link has its own offset *)
Lemma mapM_offs (agg : list XR -> XR) w k : (forall c v, v <> [] -> agg (map (sh c) v) = sh c (agg v)) ->
  forall cs m, length cs = length m ->
  mapM (rolling agg w k) (offs cs m) = (do r <- mapM (rolling agg w k) m; Ok (offs cs r)).
Proof.
  intros H. induction cs as [|c cs IH]; intros [|r m] E; try discriminate; auto.
  unfold offs, map2 in *. cbn [combine map fst snd mapM]. rewrite off_sh, rolling_shift by auto.
  destruct (rolling agg w k r) as [x|]; auto. cbn [bind]. rewrite IH by (injection E; auto).
  destruct (mapM (rolling agg w k) m); reflexivity.
Qed.

Lemma delta_offs cs m mx : length cs = length m -> length mx = length m ->
  map2 (map2 n_sub) (offs cs m) (offs cs mx) = map2 (map2 n_sub) m mx.
Proof.
  revert m mx. induction cs as [|c cs IH]; intros [|r m] [|x mx] E1 E2; try discriminate; auto.
  unfold offs, map2 in *. cbn [combine map fst snd]. rewrite IH by (simpl in *; congruence). f_equal.
  apply map2_sub_shift.
Qed.

Lemma mapM_length {A B} (f : A -> res B) l r : mapM f l = Ok r -> length r = length l.
Proof.
  revert r. induction l as [|x l IH]; intros r E; simpl in E; [injection E as <-; auto|].
  destruct (f x); [|discriminate]. cbn [bind] in E. destruct (mapM f l); [|discriminate]. cbn [bind] in E.
  injection E as <-. simpl. f_equal. apply IH; auto.
Qed.

Lemma wetdry_offs T cs pmin lengths ds radius tP tPL ml iv tp mh : length cs = length pmin ->
  nearby_wetdry T (offs cs pmin) lengths ds radius tP tPL ml iv tp mh = nearby_wetdry T pmin lengths ds radius tP tPL ml iv tp mh.
Proof.
  intros E. assert (LO : length (offs cs pmin) = length pmin) by (unfold offs; rewrite map2_length; lia).
  unfold nearby_wetdry. destruct (Nat.eqb iv 0); auto. destruct (negb _); auto.
  rewrite mapM_offs by (auto; intros; apply amax_shift; auto).
  destruct (mapM (rolling amax (tp * 60 / iv) (mh * 60 / iv)) pmin) as [mx|] eqn:EM; auto. cbn [bind].
  rewrite delta_offs; auto; [|apply mapM_length in EM; auto].
  rewrite LO. replace (map (fun _ : list XR => repeat (n_nan : XR) T) (offs cs pmin)) with (map (fun _ : list XR => repeat (n_nan : XR) T) pmin); auto.
  clear - LO. revert LO. generalize (offs cs pmin). induction pmin; intros [|y l] Q; try discriminate; auto.
  simpl. f_equal. apply IHpmin. injection Q; auto.
Qed.

(** ** min-max attenuation *)
Lemma for_range_res_ext {St} (f g : nat -> St -> res St) l : (forall i s, f i s = g i s) -> forall s, for_range_res l f s = for_range_res l g s.
Proof. intros H. induction l as [|i l IH]; intros s; auto. simpl. rewrite H. destruct (g i s); simpl; auto. Qed.

Lemma nget_shift c l i : nget (map (sh c) l) i = sh c (nget l i).
Proof.
  unfold nget. destruct (lt_dec i (length l)); [apply get_map; auto|].
  unfold get. rewrite !nth_overflow by (rewrite ?map_length; lia). reflexivity.
Qed.

Lemma sh_sub2 d e (x y : XR) : n_sub (sh d x) (sh e y) = sh (d - e) (n_sub x y).
Proof.
  destruct x as [| |a|], y as [| |b|]; try reflexivity.
  change (XFin (a + d + - (b + e)) = XFin (a + - b + (d - e))). f_equal. ring.
Qed.

Lemma bcast2_sub2 d e l m : bcast2 n_sub (map (sh d) l) (map (sh e) m) = (do r <- bcast2 n_sub l m; Ok (map (sh (d - e)) r)).
Proof.
  assert (M : map2 n_sub (map (sh d) l) (map (sh e) m) = map (sh (d - e)) (map2 n_sub l m)).
  { revert m. induction l as [|x l IH]; intros [|y m]; auto.
    unfold map2 in *. cbn [map combine fst snd]. rewrite IH. f_equal. apply sh_sub2. }
  unfold bcast2. rewrite !map_length, M. destruct (Nat.eqb _ _); auto.
  assert (H1 : forall x m, map (n_sub (sh d x)) (map (sh e) m) = map (sh (d - e)) (map (n_sub x) m)).
  { intros. rewrite !map_map. apply map_ext. intros; apply sh_sub2. }
  assert (H2 : forall y m, map (fun x => n_sub x (sh e y)) (map (sh d) m) = map (sh (d - e)) (map (fun x => n_sub x y) m)).
  { intros. rewrite !map_map. apply map_ext. intros; apply sh_sub2. }
  destruct l as [|x [|x' l]]; [destruct m as [|y [|y' m]]; auto|exact (f_equal Ok (H1 x m))|].
  destruct m as [|y [|y' m]]; auto. exact (f_equal Ok (H2 y (x :: x' :: l))).
Qed.

Lemma sh_sub_r c (x b : XR) : n_sub (sh c x) b = sh c (n_sub x b).
Proof.
  destruct x as [| |a|], b as [| |b|]; try reflexivity.
  change (XFin (a + c + - b) = XFin (a + - b + c)). f_equal. ring.
Qed.
Lemma sh_add_r c (x b : XR) : n_add (sh c x) b = sh c (n_add x b).
Proof.
  destruct x as [| |a|], b as [| |b|]; try reflexivity.
  change (XFin (a + c + b) = XFin (a + b + c)). f_equal. ring.
Qed.

Lemma nanmean_shift c l : nanmean (map (sh c) l) = sh c (nanmean l).
Proof. unfold nanmean. fold (not_nan (map (sh c) l)) (not_nan l). rewrite not_nan_shift. apply mean_shift. Qed.

Definition rint_ok (c : R) (l : list XR) : Prop :=
  (forall x, In x l -> n_isnan x = false) \/ (exists k : Z, c = 2 * IZR k)%R.

Lemma ZnearestE_even x k : ZnearestE (x + 2 * IZR k) = (ZnearestE x + 2 * k)%Z.
Proof.
  rewrite <- mult_IZR. set (n := (2 * k)%Z).
  assert (F : Zfloor (x + IZR n) = (Zfloor x + n)%Z).
  { apply Zfloor_imp. rewrite !plus_IZR. pose proof (Zfloor_lb x). pose proof (Zfloor_ub x). lra. }
  assert (C : Zceil (x + IZR n) = (Zceil x + n)%Z).
  { unfold Zceil. replace (- (x + IZR n))%R with (- x + IZR (- n))%R by (rewrite opp_IZR; ring).
    replace (Zfloor (- x + IZR (- n))) with (Zfloor (- x) + - n)%Z; [lia|]. symmetry.
    apply Zfloor_imp. rewrite !plus_IZR, !opp_IZR. pose proof (Zfloor_lb (- x)). pose proof (Zfloor_ub (- x)). simpl. lra. }
  unfold Znearest. rewrite F, C. rewrite plus_IZR.
  replace (x + IZR n - (IZR (Zfloor x) + IZR n))%R with (x - IZR (Zfloor x))%R by ring.
  destruct (Rcompare _ _); auto.
  replace (Z.even (Zfloor x + n)) with (Z.even (Zfloor x)); [destruct (negb _); auto|].
  unfold n. rewrite Z.even_add, Z.even_mul. simpl. destruct (Z.even (Zfloor x)); reflexivity.
Qed.

Lemma rint_shift k (x : XR) : n_rint (sh (2 * IZR k) x) = sh (2 * IZR k) (n_rint x).
Proof.
  destruct x as [| |a|]; try reflexivity.
  change (XFin (IZR (ZnearestE (a + 2 * IZR k))) = XFin (IZR (ZnearestE a) + 2 * IZR k)).
  rewrite ZnearestE_even, plus_IZR, mult_IZR. reflexivity.
Qed.

Lemma fill_shift c l : rint_ok c l -> fill_nan (map (sh c) l) = map (sh c) (fill_nan l).
Proof.
  intros H. unfold fill_nan, mask_fill, map2.
  assert (G : forall v v' l, (sh c v = v' \/ forall x, In x l -> n_isnan x = false) ->
    map (fun p : bool * XR => if fst p then v' else snd p) (combine (map n_isnan (map (sh c) l)) (map (sh c) l)) =
    map (sh c) (map (fun p : bool * XR => if fst p then v else snd p) (combine (map n_isnan l) l))).
  { intros v v' m. induction m as [|x m IH]; intros Q; auto. cbn [map combine fst snd].
    rewrite IH by (destruct Q as [Q|Q]; [left; auto|right; intros; apply Q; right; auto]).
    f_equal. rewrite sh_isnan. destruct (n_isnan x) eqn:E; auto.
    destruct Q as [Q|Q]; auto. rewrite Q in E by (left; auto). discriminate. }
  apply (G (n_rint (nanmean l)) (n_rint (nanmean (map (sh c) l))) l).
  destruct H as [H|[k ->]]; [right; auto|left]. rewrite nanmean_shift. symmetry. apply rint_shift.
Qed.

Lemma min_max_core c Amax Amin w : rint_ok c Amax -> rint_ok c Amin ->
  for_range_res (seq w (length (fill_nan (map (sh c) Amax)) - w))
    (fun i Ar => do m <- np_min (slice (i - w) (i + 1) (fill_nan (map (sh c) Amin)));
                 Ok (upd i (n_sub (nget (fill_nan (map (sh c) Amax)) i) m) Ar))
    (repeat (zero : XR) (length (fill_nan (map (sh c) Amax)))) =
  for_range_res (seq w (length (fill_nan Amax) - w))
    (fun i Ar => do m <- np_min (slice (i - w) (i + 1) (fill_nan Amin));
                 Ok (upd i (n_sub (nget (fill_nan Amax) i) m) Ar))
    (repeat (zero : XR) (length (fill_nan Amax))).
Proof.
  intros H1 H2. rewrite !fill_shift by auto. rewrite !map_length. apply for_range_res_ext. intros i s.
  rewrite slice_map, np_min_shift, nget_shift. destruct (np_min _) as [m|]; auto. cbn [bind]. rewrite sh_sub. reflexivity.
Qed.

Definition corrected_ok (d e : R) (tx_min tx_max rx_min rx_max : list XR) (gT gR : XR) : Prop :=
  forall d1 d2, bcast2 n_sub tx_max rx_min = Ok d1 -> bcast2 n_sub tx_min rx_max = Ok d2 ->
  rint_ok (d - e) (map (fun x => n_sub x (n_div (n_add gT gR) (n_ofZ 2))) d1) /\
  rint_ok (d - e) (map (fun x => n_add x (n_div (n_add gT gR) (n_ofZ 2))) d2).

Lemma min_max_shift d e (tx_min tx_max rx_min rx_max : list XR) (gT gR : XR) w :
  corrected_ok d e tx_min tx_max rx_min rx_max gT gR ->
  calc_A_min_max (off d tx_min) (off d tx_max) (off e rx_min) (off e rx_max) gT gR w = calc_A_min_max tx_min tx_max rx_min rx_max gT gR w.
Proof.
  intros H. unfold calc_A_min_max. rewrite !off_sh, !bcast2_sub2.
  unfold corrected_ok in H. destruct (bcast2 n_sub tx_max rx_min) as [d1|]; auto. cbn [bind].
  destruct (bcast2 n_sub tx_min rx_max) as [d2|]; auto. cbn [bind].
  destruct (H d1 d2 eq_refl eq_refl) as [H1 H2]. set (b := n_div (n_add gT gR) (n_ofZ 2)) in *.
  replace (map (fun x => n_sub x b) (map (sh (d - e)) d1)) with (map (sh (d - e)) (map (fun x => n_sub x b) d1))
    by (rewrite !map_map; apply map_ext; intros; symmetry; apply sh_sub_r).
  replace (map (fun x => n_add x b) (map (sh (d - e)) d2)) with (map (sh (d - e)) (map (fun x => n_add x b) d2))
    by (rewrite !map_map; apply map_ext; intros; symmetry; apply sh_add_r).
  rewrite min_max_core by auto. reflexivity.
Qed.

Lemma sub_not_nan (x y : XR) : finite x -> finite y -> finite (n_sub x y).
Proof. intros [H1 H2] [H3 H4]. destruct x, y; try discriminate; split; reflexivity. Qed.
Lemma add_not_nan (x y : XR) : finite x -> finite y -> finite (n_add x y).
Proof. intros [H1 H2] [H3 H4]. destruct x, y; try discriminate; split; reflexivity. Qed.

Lemma bcast2_In {A B C} (f : A -> B -> C) l m r z : bcast2 f l m = Ok r -> In z r -> exists x y, In x l /\ In y m /\ z = f x y.
Proof.
  unfold bcast2. destruct (Nat.eqb _ _).
  - intros E; injection E as <-. unfold map2. intros H. apply in_map_iff in H as ((x & y) & <- & H). exists x, y.
    pose proof (in_combine_l _ _ _ _ H). pose proof (in_combine_r _ _ _ _ H). auto.
  - destruct l as [|x [|x' l]].
    + destruct m as [|y [|y' m]]; intros E; try discriminate; injection E as <-; intros [].
    + intros E; injection E as <-. intros H. apply in_map_iff in H as (y & <- & H). exists x, y. simpl; auto.
    + destruct m as [|y [|y' m]]; intros E; try discriminate. injection E as <-. intros H.
      assert (In z (map (fun x => f x y) (x :: x' :: l))) as H' by exact H.
      apply in_map_iff in H' as (x0 & <- & H0). exists x0, y. split; auto. simpl; auto.
Qed.

Lemma min_max_shift_complete d e (tx_min tx_max rx_min rx_max : list XR) (gT gR : XR) w :
  (forall x, In x (tx_min ++ tx_max ++ rx_min ++ rx_max) -> finite x) -> finite gT -> finite gR ->
  calc_A_min_max (off d tx_min) (off d tx_max) (off e rx_min) (off e rx_max) gT gR w = calc_A_min_max tx_min tx_max rx_min rx_max gT gR w.
Proof.
  intros H HT HR. apply min_max_shift. intros d1 d2 E1 E2.
  assert (B : finite (n_div (n_add gT gR) (n_ofZ 2))).
  { pose proof (add_not_nan _ _ HT HR) as Q. destruct (n_add gT gR) as [| |r|]; destruct Q; try discriminate.
    change (finite (xdiv (XFin r) (XFin 2) : XR)). rewrite xdiv_finr by lra. split; reflexivity. }
  split; left; intros x Hx; apply in_map_iff in Hx as (z & <- & Hz).
  - destruct (bcast2_In _ _ _ _ _ E1 Hz) as (p & q & Hp & Hq & ->). apply sub_not_nan; auto. apply sub_not_nan; apply H; rewrite !in_app_iff; auto.
  - destruct (bcast2_In _ _ _ _ _ E2 Hz) as (p & q & Hp & Hq & ->). apply add_not_nan; auto. apply sub_not_nan; apply H; rewrite !in_app_iff; auto.
Qed.

Lemma min_max_shift_even d e k (tx_min tx_max rx_min rx_max : list XR) (gT gR : XR) w : (d - e = 2 * IZR k)%R ->
  calc_A_min_max (off d tx_min) (off d tx_max) (off e rx_min) (off e rx_max) gT gR w = calc_A_min_max tx_min tx_max rx_min rx_max gT gR w.
Proof. intros H. apply min_max_shift. intros d1 d2 _ _. split; right; exists k; auto. Qed.

(** ** linear baseline *)
Lemma linspace_shift c a b k : n_linspace (sh c a) (sh c b) k = map (sh c) (n_linspace a b k).
Proof.
  destruct k as [|[|k]]; auto. unfold n_linspace. rewrite sh_sub, map_app, map_map. f_equal.
  apply map_ext. intros i. apply sh_add_r.
Qed.

Definition lin_rel (c : R) (N : nat) (s s' : lin_state (O := XR)) : Prop :=
  length (ls_baseline s) = N /\ length (ls_baseline s') = N /\ ls_last_dry_i s' = ls_last_dry_i s /\
  ls_last_dry_rsl s' = sh c (ls_last_dry_rsl s) /\ ls_last_i_is_wet s' = ls_last_i_is_wet s /\ ls_found_nan s' = ls_found_nan s /\
  forall j, j <= ls_last_dry_i s -> get (n_nan : XR) (ls_baseline s') j = sh c (get n_nan (ls_baseline s) j).

Lemma get_upd_slice (b v : list XR) d j : d + length v <= length b ->
  get (n_nan : XR) (upd_slice d v b) j = if (d <=? j) && (j <? d + length v) then get n_nan v (j - d) else get n_nan b j.
Proof.
  intros H. destruct (Nat.leb_spec d j); cbn [andb].
  - destruct (Nat.ltb_spec j (d + length v)).
    + apply get_upd_slice_in; lia.
    + apply get_upd_slice_out; lia.
  - apply get_upd_slice_out; lia.
Qed.

Lemma linspace_length (a b : XR) k : length (n_linspace a b k) = k.
Proof.
  destruct k as [|[|k]]; auto. unfold n_linspace. rewrite app_length, map_length, seq_length. simpl. lia.
Qed.

Lemma upd_slice_rel c d i (b b' v v' : list XR) : d <= i < length b -> length b' = length b ->
  length v = i + 1 - d -> v' = map (sh c) v ->
  (forall j, j <= d -> get (n_nan : XR) b' j = sh c (get n_nan b j)) ->
  forall j, j <= i -> get (n_nan : XR) (upd_slice d v' b') j = sh c (get n_nan (upd_slice d v b) j).
Proof.
  intros Hd HL Hv -> H j Hj. rewrite !get_upd_slice by (rewrite ?map_length; lia). rewrite map_length.
  destruct ((d <=? j) && (j <? d + length v)) eqn:E.
  - apply andb_prop in E as [E1 E2]. apply Nat.ltb_lt in E2. apply Nat.leb_le in E1. apply get_map. lia.
  - apply H. apply andb_false_iff in E as [E|E]; [apply Nat.leb_gt in E|apply Nat.ltb_ge in E]; lia.
Qed.

Lemma map_repeat_nan c k : repeat (n_nan : XR) k = map (sh c) (repeat (n_nan : XR) k).
Proof. induction k; auto. cbn [repeat map]. rewrite <- IHk. reflexivity. Qed.

Lemma lin_body_rel c rsl wet ign i s s' : 1 <= i < length rsl -> lin_rel c (length rsl) s s' -> ls_last_dry_i s < i ->
  (ls_last_i_is_wet s = false -> ls_last_dry_i s = i - 1) ->
  match lin_body rsl wet ign i s, lin_body (map (sh c) rsl) wet ign i s' with
  | Ok t, Ok t' => lin_rel c (length rsl) t t' /\ ls_last_dry_i t < S i /\ (ls_last_i_is_wet t = false -> ls_last_dry_i t = i)
  | Err e, Err e' => e = e'
  | _, _ => False
  end.
Proof.
  intros Hi (L1 & L2 & Ed & Er & Ew & En & Hb) Hd Hdry. unfold lin_body.
  rewrite Ew, En, Ed, Er, nget_shift. set (r := nget rsl i).
  set (isw := if n_isnan (nget wet i) then _ else _). set (fn := if n_isnan (nget wet i) then _ else ls_found_nan s).
  destruct (ls_last_i_is_wet s) eqn:W; destruct isw eqn:Q; cbn [negb andb].
  - split; [|split]; cbn [ls_last_dry_i ls_last_i_is_wet]; [repeat split; auto|lia|intros K; discriminate].
  - split; [|split]; cbn [ls_last_dry_i ls_last_i_is_wet]; try lia.
    assert (RR : forall j, j <= i -> get (n_nan : XR)
       (if fn then upd_slice (ls_last_dry_i s) (repeat n_nan (i + 1 - ls_last_dry_i s)) (ls_baseline s')
        else upd_slice (ls_last_dry_i s) (n_linspace (sh c (ls_last_dry_rsl s)) (sh c r) (i - ls_last_dry_i s + 1)) (ls_baseline s')) j =
       sh c (get n_nan (if fn then upd_slice (ls_last_dry_i s) (repeat n_nan (i + 1 - ls_last_dry_i s)) (ls_baseline s)
        else upd_slice (ls_last_dry_i s) (n_linspace (ls_last_dry_rsl s) r (i - ls_last_dry_i s + 1)) (ls_baseline s)) j)).
    { destruct fn; apply upd_slice_rel; rewrite ?repeat_length, ?linspace_length; auto; try lia.
      - apply map_repeat_nan.
      - apply linspace_shift. }
    unfold lin_rel. cbn [ls_baseline ls_last_dry_i ls_last_dry_rsl ls_last_i_is_wet ls_found_nan].
    repeat split; auto; destruct fn; rewrite upd_slice_length; auto.
  - split; [|split]; cbn [ls_last_dry_i ls_last_i_is_wet]; [repeat split; auto|lia|intros K; discriminate].
  - split; [|split]; cbn [ls_last_dry_i ls_last_i_is_wet]; try lia.
    unfold lin_rel. cbn [ls_baseline ls_last_dry_i ls_last_dry_rsl ls_last_i_is_wet ls_found_nan].
    specialize (Hdry eq_refl).
    repeat split; auto; try (destruct fn; rewrite upd_length; auto).
    intros j Hj. destruct (Nat.eq_dec j i) as [->|NE].
    + destruct fn; rewrite !get_upd_eq by lia; reflexivity.
    + destruct fn; rewrite !get_upd_neq by lia; apply Hb; lia.
Qed.

Lemma lin_loop_rel c rsl wet ign k : S k <= length rsl ->
  let s0 := mk_lin (upd 0 (nget rsl 0) (repeat (zero : XR) (length rsl))) 0 (nget rsl 0) false false in
  let s0' := mk_lin (upd 0 (sh c (nget rsl 0)) (repeat (zero : XR) (length rsl))) 0 (sh c (nget rsl 0)) false false in
  match for_range_res (seq 1 k) (lin_body rsl wet ign) s0, for_range_res (seq 1 k) (lin_body (map (sh c) rsl) wet ign) s0' with
  | Ok t, Ok t' => lin_rel c (length rsl) t t' /\ ls_last_dry_i t < S k /\ (ls_last_i_is_wet t = false -> ls_last_dry_i t = k)
  | Err e, Err e' => e = e'
  | _, _ => False
  end.
Proof.
  intros Hk s0 s0'. induction k as [|k IH].
  - cbn [seq for_range_res]. split; [|split; cbn; auto].
    unfold lin_rel, s0, s0'. cbn [ls_baseline ls_last_dry_i ls_last_dry_rsl ls_last_i_is_wet ls_found_nan].
    rewrite !upd_length, repeat_length. repeat split; auto.
    intros j Hj. replace j with 0 by lia. rewrite !get_upd_eq by (rewrite repeat_length; lia). reflexivity.
  - rewrite seq_S, !for_range_res_snoc. specialize (IH ltac:(lia)).
    destruct (for_range_res (seq 1 k) (lin_body rsl wet ign) s0) as [t|e];
      destruct (for_range_res (seq 1 k) (lin_body (map (sh c) rsl) wet ign) s0') as [t'|e']; try contradiction; auto.
    cbn [bind]. destruct IH as (I1 & I2 & I3).
    apply lin_body_rel; auto; try lia. intros K. rewrite I3 by auto. lia.
Qed.

Lemma linear_shift c rsl wet ign : (length rsl <= length wet -> n_eqb (nget wet (length rsl - 1)) (n_ofZ 0 : XR) = true \/ length rsl = 1) ->
  baseline_linear (off c rsl) wet ign = (do b <- baseline_linear rsl wet ign; Ok (off c b)).
Proof.
  intros H. unfold baseline_linear. rewrite off_length.
  destruct (Nat.eqb_spec (length rsl) 0) as [?|NZ]; auto.
  destruct (Nat.ltb_spec (length wet) (length rsl)) as [?|LW]; auto. specialize (H LW).
  unfold numba_baseline_linear. rewrite off_length, !off_sh, nget_shift.
  pose proof (lin_loop_rel c rsl wet ign (length rsl - 1) ltac:(lia)) as P. cbv zeta in P.
  set (s0 := mk_lin (upd 0 (nget rsl 0) (repeat (zero : XR) (length rsl))) 0 (nget rsl 0) false false) in *.
  set (s0' := mk_lin (upd 0 (sh c (nget rsl 0)) (repeat (zero : XR) (length rsl))) 0 (sh c (nget rsl 0)) false false) in *.
  assert (D : forall t, for_range_res (seq 1 (length rsl - 1)) (lin_body rsl wet ign) s0 = Ok t -> ls_last_i_is_wet t = false).
  { intros t. destruct H as [H|H].
    - destruct (length rsl - 1) as [|k] eqn:K.
      + intros E. injection E as <-. reflexivity.
      + rewrite seq_S, for_range_res_snoc. destruct (for_range_res (seq 1 k) _ s0) as [u|]; [|discriminate]. cbn [bind].
        change (1 + k) with (S k). unfold lin_body.
        assert (NN : n_isnan (nget wet (S k)) = false).
        { revert H. generalize (nget wet (S k)). intros x. destruct x; auto; discriminate. }
        rewrite NN. unfold n_truthy, zero. rewrite H. cbn [negb andb].
        destruct (ls_last_i_is_wet u); cbn; intros E; injection E as <-; reflexivity.
    - rewrite H. intros E. injection E as <-. reflexivity. }
  destruct (for_range_res (seq 1 (length rsl - 1)) (lin_body rsl wet ign) s0) as [t|e];
    destruct (for_range_res (seq 1 (length rsl - 1)) (lin_body (map (sh c) rsl) wet ign) s0') as [t'|e']; try contradiction; cbn [bind]; [|congruence].
  destruct P as ((L1 & L2 & _ & _ & _ & _ & Hb) & _ & P3). rewrite P3 in Hb by (apply D; auto).
  f_equal. rewrite off_sh. apply (get_ext (n_nan : XR)).
  - rewrite map_length. congruence.
  - intros j Hj. rewrite Hb by lia. symmetry. apply get_map. lia.
Qed.

Lemma nearby_rain_shift L cubic c pmin pmax wet F n mp len f pol a b ap waa alpha thr :
  let rain := fun pmin pmax =>
    do pref <- nearby_determine_reference_level pmin pmax wet n mp;
    let '(cmin, cmax) := nearby_correct_received_signals pmin pmax wet pref in
    nearby_rainfall_retrival L cubic pref cmin cmax F len f pol a b ap waa alpha thr in
  rain (off c pmin) (off c pmax) = rain pmin pmax.
Proof.
  cbv beta zeta. rewrite reference_shift. destruct (nearby_determine_reference_level pmin pmax wet n mp) as [p|]; auto. cbn [bind].
  rewrite correct_shift. destruct (nearby_correct_received_signals pmin pmax wet p) as [x y]. cbn [fst snd].
  apply retrieval_shift.
Qed.

Lemma linear_shift_refuted c : c <> 0%R ->
  exists (rsl wet b b' : list XR), baseline_linear rsl wet false = Ok b /\ baseline_linear (off c rsl) wet false = Ok b' /\ b' <> off c b.
Proof.
  intros H. assert (T : n_truthy (XFin 1 : XR) = true).
  { unfold n_truthy. change (negb (xeqb (XFin 1) (XFin 0)) = true). simpl. rewrite Req_bool_false by lra. reflexivity. }
  exists [XFin 0; XFin 0], [XFin 0; XFin 1], [XFin 0; XFin 0], [XFin (0 + c); XFin 0].
  assert (Z : (zero : XR) = XFin 0) by reflexivity.
  split; [|split].
  - unfold baseline_linear, numba_baseline_linear. cbn -[n_truthy zero]. unfold lin_body. cbn -[n_truthy zero]. rewrite T, Z. reflexivity.
  - unfold baseline_linear, numba_baseline_linear. cbn -[n_truthy zero]. unfold lin_body. cbn -[n_truthy zero]. rewrite T, Z. reflexivity.
  - unfold off. cbn. intros E. injection E as E. apply H. lra.
Qed.

Lemma min_max_odd : exists (tx tx' rx a a' : list F64) w,
  length tx = length tx' /\ (forall i, i < length tx -> get n_nan tx' i = n_add (get n_nan tx i) (n_ofZ 1)) /\
  calc_A_min_max tx tx rx rx (n_ofZ 0) (n_ofZ 0) w = Ok a /\ calc_A_min_max tx' tx' rx rx (n_ofZ 0) (n_ofZ 0) w = Ok a' /\
  exists i, i < length a /\ n_ltb (get n_nan a i) (get n_nan a' i) = true.
Proof.
  set (z := [#0; #0; #0]).
  assert (E : match calc_A_min_max [#50; #51; fNaN] [#50; #51; fNaN] z z #0 #0 2,
     calc_A_min_max [n_add #50 #1; n_add #51 #1; n_add fNaN #1] [n_add #50 #1; n_add #51 #1; n_add fNaN #1] z z #0 #0 2 with
     | Ok a, Ok a' => Nat.ltb 2 (length a) && n_ltb (get n_nan a 2) (get n_nan a' 2) | _, _ => false end = true) by (vm_compute; reflexivity).
  destruct (calc_A_min_max [#50; #51; fNaN] [#50; #51; fNaN] z z #0 #0 2) as [a|] eqn:E1; [|discriminate].
  destruct (calc_A_min_max [n_add #50 #1; n_add #51 #1; n_add fNaN #1] [n_add #50 #1; n_add #51 #1; n_add fNaN #1] z z #0 #0 2) as [a'|] eqn:E2; [|discriminate].
  apply andb_prop in E as [L E]. apply Nat.ltb_lt in L.
  exists [#50; #51; fNaN], [n_add #50 #1; n_add #51 #1; n_add fNaN #1], z, a, a', 2.
  repeat split; auto; [|exists 2; auto].
  intros [|[|[|i]]] Hi; try reflexivity. simpl in Hi. lia.
Qed.
