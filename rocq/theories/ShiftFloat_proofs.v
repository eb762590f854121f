(** * Proofs for C146 *)
From Coq Require Import List ZArith Bool String Lia Arith Reals Lra.
From Flocq Require Import Core Plus_error IEEE754.BinarySingleNaN.
From Verif Require Import Base Num NumF64 NumList NpOps Libm RealSpec Median Baseline_model Baseline_spec Baseline_proofs Baseline_proofs2
  Schleiss_model KR_model KR_spec NearbyRain_model NearbyWetdry_model Chain_model Chain_spec Chain_proofs Shift_proofs SumFloat_spec SumFloat_proofs ShiftFloat_spec.
From Verif Require Grid64_proofs.
Import ListNotations.
Local Open Scope nat_scope.
Local Notation length := List.length.

(** ** a map that keeps what the code looks at *)
Section Gen.
Context {O : numops}.
Variable f : O -> O.
Variable D : O -> Prop.
Hypothesis f_nan : f n_nan = n_nan.
Hypothesis D_nan : D n_nan.
Hypothesis f_isnan : forall x, D x -> n_isnan (f x) = n_isnan x.
Hypothesis f_ltb : forall x y, D x -> D y -> n_ltb (f x) (f y) = n_ltb x y.
Hypothesis f_leb : forall x y, D x -> D y -> n_leb (f x) (f y) = n_leb x y.
Hypothesis f_sub : forall x y, D x -> D y -> n_sub (f x) (f y) = n_sub x y.
Notation all P l := (forall x, In x l -> P x).

Lemma map2_sub_f l m : all D l -> all D m -> map2 n_sub (map f l) (map f m) = map2 n_sub l m.
Proof using f_sub.
  revert m. induction l as [|x l IH]; intros [|y m] Hl Hm; auto. unfold map2 in *. cbn [map combine fst snd]. f_equal.
  - apply f_sub; [apply Hl|apply Hm]; left; auto.
  - apply IH; intros z Hz; [apply Hl|apply Hm]; right; auto.
Qed.
Lemma bcast2_sub_f l m : all D l -> all D m -> bcast2 n_sub (map f l) (map f m) = bcast2 n_sub l m.
Proof using f_sub.
  intros Hl Hm. unfold bcast2. rewrite !map_length, map2_sub_f by auto. destruct (Nat.eqb _ _); auto.
  assert (H1 : forall x, D x -> map (n_sub (f x)) (map f m) = map (n_sub x) m).
  { intros x Hx. rewrite map_map. apply map_ext_in. intros; apply f_sub; auto. }
  assert (H2 : forall y, D y -> map (fun x => n_sub x (f y)) (map f l) = map (fun x => n_sub x y) l).
  { intros y Hy. rewrite map_map. apply map_ext_in. intros; apply f_sub; auto. }
  destruct l as [|x [|x' l]]; [destruct m as [|y [|y' m]]; auto|exact (f_equal Ok (H1 x (Hl x (or_introl eq_refl))))|].
  destruct m as [|y [|y' m]]; auto. exact (f_equal Ok (H2 y (Hm y (or_introl eq_refl)))).
Qed.

Lemma not_nan_f l : all D l -> not_nan (map f l) = map f (not_nan l).
Proof using f_isnan.
  induction l as [|x l IH]; intros H; auto. unfold not_nan in *. cbn [map filter]. rewrite f_isnan by (apply H; left; auto).
  rewrite IH by (intros y Hy; apply H; right; auto). destruct (negb (n_isnan x)); reflexivity.
Qed.
Lemma slice_in {A} (l : list A) i j x : In x (slice i j l) -> In x l.
Proof using.
  unfold slice. intros H. rewrite <- (firstn_skipn i l). apply in_or_app. right. rewrite <- (firstn_skipn (j - i) (skipn i l)). apply in_or_app. left. exact H.
Qed.
Lemma sort_In (l : list O) x : In x (sort l) -> In x l.
Proof using. apply Permutation.Permutation_in, sort_perm. Qed.

Lemma rolling_f (agg : list O -> O) w k l (Q : O -> Prop) : all D l -> Q n_nan ->
  (forall v, v <> [] -> (forall x, In x v -> In x l) -> agg (map f v) = f (agg v) /\ Q (agg v)) ->
  rolling agg w k (map f l) = (do r <- rolling agg w k l; Ok (map f r)) /\ (forall r, rolling agg w k l = Ok r -> all Q r).
Proof using f_isnan f_nan.
  intros HD QN H. unfold rolling. rewrite !map_length. destruct (rolling_ok w k (length l)) eqn:E; [|split; [reflexivity|discriminate]].
  apply rolling_ok_true in E. cbn [bind]. split.
  - f_equal. rewrite map_map. apply map_ext. intros i. unfold trailing. rewrite slice_map.
    rewrite not_nan_f by (intros x Hx; apply HD; apply slice_in in Hx; auto). rewrite map_length. cbv zeta.
    set (v := not_nan (slice (i + 1 - w) (i + 1) l)).
    destruct (Nat.ltb_spec (length v) k); [auto|].
    apply H; [intros N; rewrite N in *; simpl in *; lia|]. intros x Hx. unfold v, not_nan in Hx. apply filter_In in Hx. destruct Hx as [Hx _]. apply slice_in in Hx. auto.
  - intros r X. injection X as <-. intros x Hx. apply in_map_iff in Hx. destruct Hx as (i & <- & _). cbv zeta. unfold trailing.
    set (v := not_nan (slice (i + 1 - w) (i + 1) l)). destruct (Nat.ltb_spec (length v) k); auto.
    apply H; [intros N; rewrite N in *; simpl in *; lia|]. intros x Hx. unfold v, not_nan in Hx. apply filter_In in Hx. destruct Hx as [Hx _]. apply slice_in in Hx. auto.
Qed.

Lemma np_fold_f lt : (forall x y, D x -> D y -> lt (f x) (f y) = lt x y) ->
  forall l x, D x -> all D l -> np_fold lt (f x) (map f l) = f (np_fold lt x l) /\ (np_fold lt x l = x \/ In (np_fold lt x l) l).
Proof using f_isnan.
  intros H. unfold np_fold. induction l as [|y l IH]; intros x Hx Hl; [auto|]. cbn [map fold_left].
  assert (Dy : D y) by (apply Hl; left; auto). assert (Dl : all D l) by (intros z Hz; apply Hl; right; auto).
  rewrite !f_isnan, H by auto. 
  assert (S1 := IH x Hx Dl). assert (S2 := IH y Dy Dl).
  destruct (n_isnan x); [destruct S1 as [S1 [E|E]]; cbn [In]; auto|]. destruct (n_isnan y); [destruct S2 as [S2 [E|E]]; cbn [In]; auto|].
  destruct (lt y x); [destruct S2 as [S2 [E|E]]|destruct S1 as [S1 [E|E]]]; cbn [In]; auto.
Qed.
Lemma amax_f v : v <> [] -> all D v -> amax (map f v) = f (amax v) /\ In (amax v) v.
Proof using f_isnan f_ltb.
  intros H HD. destruct v as [|x l]; [congruence|]. unfold amax. simpl.
  destruct (np_fold_f (fun v acc => n_ltb acc v)) with (l := l) (x := x) as [A B]; [intros; apply f_ltb; auto|apply HD; left; auto|intros y Hy; apply HD; right; auto|].
  split; [exact A|]. destruct B; auto.
Qed.

Lemma insert_f x l : D x -> all D l -> insert (f x) (map f l) = map f (insert x l).
Proof using f_leb.
  intros Hx. induction l as [|y l IH]; intros Hl; auto. cbn [map insert]. rewrite f_leb by (auto; apply Hl; left; auto). destruct (n_leb x y); auto.
  cbn [map]. rewrite IH by (intros z Hz; apply Hl; right; auto). auto.
Qed.
Lemma sort_f l : all D l -> sort (map f l) = map f (sort l).
Proof using f_leb.
  induction l as [|x l IH]; intros H; auto. cbn [map sort fold_right]. unfold sort in IH. rewrite IH by (intros y Hy; apply H; right; auto). apply insert_f; [apply H; left; auto|].
  intros y Hy. apply sort_In in Hy. apply H; right; auto.
Qed.
Lemma median_f v (P Q : O -> Prop) : (forall x, P x -> Q x) -> (forall x y, P x -> P y -> n_div (n_add (f x) (f y)) (n_ofZ 2) = f (n_div (n_add x y) (n_ofZ 2)) /\ Q (n_div (n_add x y) (n_ofZ 2))) ->
  v <> [] -> all D v -> all P v -> median (map f v) = f (median v) /\ Q (median v).
Proof using f_leb.
  intros PQ HH H HD HP. unfold median. rewrite sort_f by auto. unfold middle. rewrite map_length.
  assert (0 < length (sort v)) as Hl by (rewrite sort_length; destruct v; [congruence|simpl; lia]).
  assert (HS : all P (sort v)) by (intros x Hx; apply HP; apply sort_In; auto).
  set (s := sort v) in *. assert (length s / 2 < length s) by (apply Nat.div_lt; lia).
  destruct (Nat.odd (length s)).
  - split; [apply get_map; auto|]. apply PQ, HS, get_In; auto.
  - destruct (Nat.eqb_spec (length s) 0); [lia|].
    rewrite !(get_map f (n_nan : O) (n_nan : O)) by lia. apply HH; apply HS, get_In; lia.
Qed.

Lemma row_max w k l : all D l -> rolling amax w k (map f l) = (do r <- rolling amax w k l; Ok (map f r)) /\ (forall r, rolling amax w k l = Ok r -> all D r).
Proof using f_nan D_nan f_isnan f_ltb.
  intros H. apply rolling_f; auto. intros v NV SV. destruct (amax_f v NV) as [A B]; [intros x Hx; apply H, SV; auto|]. split; auto.
Qed.

(** the default constant baseline takes values of the series *)
Hypothesis mean1 : forall x, D x -> n_mean [x] = x.
Hypothesis mean1f : forall x, D x -> n_mean [f x] = f x.
Lemma baseline_f trsl wet : all D trsl ->
  baseline_constant (map f trsl) wet 1 = (do b <- baseline_constant trsl wet 1; Ok (map f b)) /\ (forall b, baseline_constant trsl wet 1 = Ok b -> length b = length trsl /\ all (fun x => In x trsl) b).
Proof using mean1 mean1f.
  intros HD. destruct (baseline_constant trsl wet 1) as [b|e] eqn:E.
  2: { split; [|discriminate]. cbn [bind]. rewrite <- E. unfold baseline_constant in *. rewrite map_length. destruct (Nat.ltb _ _); [reflexivity|discriminate]. }
  destruct (constant_rec _ _ _ _ E) as [LB RB].
  assert (IN : forall i, i < length trsl -> In (get n_nan b i) trsl).
  { intros i. induction i as [i IH] using lt_wf_ind. intros Hi. destruct (RB i Hi) as [A1 A2]. unfold nget in *.
    destruct (le_lt_dec 1 i) as [L|L]; [|rewrite A1 by auto; apply get_In; auto]. rewrite A2 by auto.
    destruct (get false (map n_truthy wet) i); [|apply get_In; auto]. destruct (get false (map n_truthy wet) (i - 1)); [apply IH; lia|].
    assert (SL : slice (i - 1) i b = [get n_nan b (i - 1)]).
    { apply get_ext with (d := (n_nan : O)); unfold slice; [rewrite firstn_length, skipn_length; cbn [length]; lia|]. intros j Hj. rewrite firstn_length, skipn_length in Hj.
      assert (j = 0) as -> by lia. unfold get. rewrite nth_firstn_lt, nth_skipn_plus by lia. cbn [nth]. f_equal. lia. }
    rewrite SL, mean1 by (apply HD, IH; lia). apply IH; lia. }
  split.
  2: { intros b' X. injection X as <-. split; auto. intros x Hx. apply (In_get n_nan) in Hx. destruct Hx as (i & Hi & <-). apply IN. lia. }
  cbn [bind]. destruct (baseline_constant (map f trsl) wet 1) as [b'|e'] eqn:E'.
  2: { unfold baseline_constant in E, E'. rewrite map_length in E'. destruct (Nat.ltb _ _); discriminate. }
  destruct (constant_rec _ _ _ _ E') as [LB' RB']. rewrite map_length in LB', RB'. f_equal.
  apply get_ext with (d := (n_nan : O)); [rewrite map_length; congruence|]. rewrite LB'. intros i. induction i as [i IH] using lt_wf_ind. intros Hi.
  rewrite get_map with (d := (n_nan : O)) by lia.
  destruct (RB i Hi) as [A1 A2]. destruct (RB' i Hi) as [B1 B2]. unfold nget in *.
  assert (T : get (n_nan : O) (map f trsl) i = f (get n_nan trsl i)) by (apply get_map; auto).
  destruct (le_lt_dec 1 i) as [L|L]; [|rewrite B1, A1 by auto; exact T]. rewrite B2, A2 by auto.
  destruct (get false (map n_truthy wet) i); [|exact T].
  assert (G : get n_nan b' (i - 1) = f (get n_nan b (i - 1))) by (rewrite IH by lia; apply get_map; lia).
  destruct (get false (map n_truthy wet) (i - 1)); [exact G|].
  assert (SL : forall c : list O, length c = length trsl -> slice (i - 1) i c = [get n_nan c (i - 1)]).
  { intros c Lc. apply get_ext with (d := (n_nan : O)); unfold slice; [rewrite firstn_length, skipn_length; cbn [length]; lia|]. intros j Hj. rewrite firstn_length, skipn_length in Hj.
    assert (j = 0) as -> by lia. unfold get. rewrite nth_firstn_lt, nth_skipn_plus by lia. cbn [nth]. f_equal. lia. }
  rewrite !SL by auto. rewrite G. rewrite mean1f, mean1 by (apply HD, IN; lia). reflexivity.
Qed.

Lemma chain_f L cubic clipped trsl wet m dt tau (k : kr_args O) : all D trsl ->
  chain L cubic clipped (map f trsl) wet 1 m dt tau k = chain L cubic clipped trsl wet 1 m dt tau k.
Proof using mean1 mean1f f_sub.
  intros HD. unfold chain. destruct (baseline_f trsl wet HD) as [-> HB]. destruct (baseline_constant trsl wet 1) as [b|]; auto. cbn [bind].
  destruct (HB b eq_refl) as [_ Hb]. assert (Db : all D b) by (intros x Hx; apply HD, Hb; auto).
  unfold attenuation_of. rewrite map2_sub_f by auto. unfold waa_schleiss_2013, numba_waa_schleiss_2013. rewrite !map_length, map2_sub_f by auto. reflexivity.
Qed.

(** the nearby-link rain rate *)
Variables P0 P1 : O -> Prop.
Hypothesis P01 : forall x, P0 x -> P1 x.
Hypothesis P1D : forall x, P1 x -> D x.
Hypothesis P1_nan : P1 n_nan.
Notation half x y := (n_div (n_add x y) (n_ofZ 2)).
Hypothesis half0 : forall x y, P0 x -> P0 y -> half (f x) (f y) = f (half x y) /\ P1 (half x y).
Hypothesis half1 : forall x y, P1 x -> P1 y -> half (f x) (f y) = f (half x y) /\ D (half x y).

Lemma reference_f pmin pmax wet n mp : all P0 pmin -> all P0 pmax ->
  nearby_determine_reference_level (map f pmin) (map f pmax) wet n mp = (do p <- nearby_determine_reference_level pmin pmax wet n mp; Ok (map f p)) /\
  (forall p, nearby_determine_reference_level pmin pmax wet n mp = Ok p -> all D p).
Proof using f_nan D_nan f_isnan f_leb P01 P1D P1_nan half0 half1.
  intros H0 H1. unfold nearby_determine_reference_level.
  generalize (map (fun w : O => if n_isnan w then (n_nan : O) else if n_eqb w zero then one else zero) wet) as d. intros d.
  set (pm := fun a b => map2 (fun (d m : O) => if n_eqb d one then m else n_nan) d (map2 (fun a b => half a b) a b)).
  assert (K : pm (map f pmin) (map f pmax) = map f (pm pmin pmax) /\ all P1 (pm pmin pmax)).
  { unfold pm. clear pm. revert pmin pmax H0 H1. induction d as [|x d IH]; intros [|a pmin] [|b pmax] H0 H1; try (split; [reflexivity|intros ? []]).
    destruct (IH pmin pmax) as [I1 I2]; [intros z Hz; apply H0; right; auto|intros z Hz; apply H1; right; auto|].
    destruct (half0 a b) as [A B]; [apply H0; left; auto|apply H1; left; auto|].
    unfold map2 in *. cbn [map combine fst snd] in *. split.
    - f_equal; [destruct (n_eqb x one); auto|exact I1].
    - intros z [<-|Hz]; [destruct (n_eqb x one); auto|apply I2; auto]. }
  fold (pm (map f pmin) (map f pmax)) (pm pmin pmax). destruct K as [-> K].
  apply rolling_f; [intros x Hx; apply P1D, K; auto|exact D_nan|]. intros v NV SV. apply (median_f v P1 D); auto.
Qed.

Lemma map2_ltb_f x y : all D x -> all D y -> map2 n_ltb (map f x) (map f y) = map2 n_ltb x y.
Proof using f_ltb.
  revert y. unfold map2. induction x as [|x0 x IH]; intros [|y0 y] Hx Hy; auto. cbn [map combine fst snd].
  rewrite (f_ltb x0 y0 (Hx x0 (or_introl eq_refl)) (Hy y0 (or_introl eq_refl))). f_equal. apply IH; intros z Hz; [apply Hx|apply Hy]; right; auto.
Qed.
Definition whO (b : list bool) (x y : list O) : list O := map2 (fun (c : bool) (p : O * O) => if c then fst p else snd p) b (combine x y).
Lemma whO_f b x y : whO b (map f x) (map f y) = map f (whO b x y).
Proof using.
  unfold whO, map2. revert x y. induction b as [|b0 b IH]; intros [|x0 x] [|y0 y]; auto. cbn [map combine fst snd]. rewrite <- IH. destruct b0; reflexivity.
Qed.
Lemma whO_in b x y : all (fun z => In z x \/ In z y) (whO b x y).
Proof using.
  unfold whO, map2. revert x y. induction b as [|b0 b IH]; intros [|x0 x] [|y0 y] z Hz; cbn [map combine fst snd In] in *; try tauto.
  destruct Hz as [<-|Hz]; [destruct b0; auto|]. destruct (IH x y z Hz); auto.
Qed.
Lemma correct_f pmin pmax wet pref : all D pmin -> all D pmax -> all D pref ->
  let r := nearby_correct_received_signals pmin pmax wet pref in
  nearby_correct_received_signals (map f pmin) (map f pmax) wet (map f pref) = (map f (fst r), map f (snd r)) /\ all D (fst r) /\ all D (snd r).
Proof using f_ltb.
  intros H1 H2 H3 r.
  assert (EQ : forall a b c, nearby_correct_received_signals a b wet c =
    let m := whO (map2 andb (map2 n_ltb a c) (map (fun w => n_eqb w one) wet)) a c in (m, whO (map2 andb (map2 n_ltb m c) (map2 n_ltb b c)) b c)) by reflexivity.
  unfold r. rewrite !EQ. cbv zeta. cbn [fst snd]. rewrite !map2_ltb_f, !whO_f by auto.
  set (m := whO _ pmin pref). assert (Dm : all D m) by (intros z Hz; apply whO_in in Hz; destruct Hz; auto).
  rewrite map2_ltb_f by auto. split; [reflexivity|]. split; [exact Dm|]. intros z Hz; apply whO_in in Hz; destruct Hz; auto.
Qed.
Lemma nearby_rain_f L cubic pmin pmax wet F n mp len fr pol a b ap waa alpha thr : all P0 pmin -> all P0 pmax ->
  let rain := fun pmin pmax =>
    do pref <- nearby_determine_reference_level pmin pmax wet n mp;
    let '(cmin, cmax) := nearby_correct_received_signals pmin pmax wet pref in
    nearby_rainfall_retrival L cubic pref cmin cmax F len fr pol a b ap waa alpha thr in
  rain (map f pmin) (map f pmax) = rain pmin pmax.
Proof using f_nan D_nan f_isnan f_ltb f_leb f_sub P01 P1D P1_nan half0 half1.
  intros H0 H1 rain. unfold rain. destruct (reference_f pmin pmax wet n mp H0 H1) as [-> HP].
  destruct (nearby_determine_reference_level pmin pmax wet n mp) as [p|]; auto. cbn [bind]. specialize (HP p eq_refl).
  assert (D0 : all D pmin) by (intros x Hx; apply P1D, P01, H0; auto). assert (D1 : all D pmax) by (intros x Hx; apply P1D, P01, H1; auto).
  pose proof (correct_f pmin pmax wet p D0 D1 HP) as C. cbv zeta in C. destruct C as (-> & C1 & C2).
  destruct (nearby_correct_received_signals pmin pmax wet p) as [cmin cmax]. cbn [fst snd] in *.
  unfold nearby_rainfall_retrival. rewrite !bcast2_sub_f by auto. reflexivity.
Qed.
End Gen.

(** ** binary64 *)
Local Open Scope R_scope.
Notation mz := (B754_zero true : f64).
Lemma val_inj (a b : f64) : f_val a = f_val b -> a <> mz -> b <> mz -> a = b.
Proof.
  intros H Ha Hb. destruct a as [s|s| |s m e h]; destruct b as [s'|s'| |s' m' e' h']; cbn in H; try (destruct s; discriminate H); try (destruct s'; discriminate H); try discriminate H; auto.
  - destruct s; [congruence|]. destruct s'; [congruence|]. reflexivity.
  - exfalso. injection H as H. symmetry in H. revert H. apply F2R_neq_0. destruct s'; discriminate.
  - destruct s, s'; try discriminate H; reflexivity.
  - exfalso. injection H as H. revert H. apply F2R_neq_0. destruct s; discriminate.
  - apply B2R_inj; auto. injection H as H. exact H.
Qed.
Lemma add_not_mz (x y : f64) : x <> mz -> f_add x y <> mz.
Proof.
  intros Hx E. destruct (is_finite x) eqn:Fx; [|destruct x as [s|[]| |s m e h]; try discriminate Fx; destruct y as [s'|[]| |s' m' e' h']; discriminate E].
  destruct (is_finite y) eqn:Fy; [|destruct y as [s'|[]| |s' m' e' h']; try discriminate Fy; destruct x as [s|[]| |s m e h]; discriminate].
  pose proof (Bplus_correct 53 1024 _ _ mode_NE x y Fx Fy) as C. change (Bplus mode_NE x y) with (f_add x y) in C. rewrite E in C.
  destruct (Rlt_bool _ _) eqn:EB.
  - destruct C as (C1 & _ & C3). cbn in C1. symmetry in C1.
    assert (Z : B2R x + B2R y = 0).
    { destruct (Req_dec (B2R x + B2R y) 0) as [|N]; auto. exfalso. revert C1. apply round_plus_neq_0; auto; try apply generic_format_B2R; try typeclasses eauto. }
    rewrite Z, Rcompare_Eq in C3 by auto. cbn in C3. symmetry in C3. apply andb_true_iff in C3. destruct C3 as [S1 S2].
    assert (Nx : B2R x <= 0 /\ (B2R x = 0 -> x = mz)).
    { destruct x as [[]|[]| |[] m e h]; try discriminate S1; try discriminate Fx; cbn; [split; [lra|auto]|].
      assert (F2R (Float radix2 (Z.neg m) e) < 0) by (apply F2R_lt_0; reflexivity). cbn in H. split; [lra|]. intros Q. exfalso. cbn in Q. lra. }
    assert (Ny : B2R y <= 0).
    { destruct y as [[]|[]| |[] m e h]; try discriminate S2; try discriminate Fy; cbn; [lra|].
      assert (F2R (Float radix2 (Z.neg m) e) < 0) by (apply F2R_lt_0; reflexivity). cbn in H. lra. }
    apply Hx, Nx. lra.
  - destruct C as [C _]. discriminate C.
Qed.
Lemma sub_not_mz (x y : f64) : x <> mz -> f_sub x y <> mz.
Proof.
  intros Hx E. destruct (is_finite x) eqn:Fx; [|destruct x as [s|[]| |s m e h]; try discriminate Fx; destruct y as [s'|[]| |s' m' e' h']; discriminate E].
  destruct (is_finite y) eqn:Fy; [|destruct y as [s'|[]| |s' m' e' h']; try discriminate Fy; destruct x as [s|[]| |s m e h]; discriminate].
  pose proof (Bminus_correct 53 1024 _ _ mode_NE x y Fx Fy) as C. change (Bminus mode_NE x y) with (f_sub x y) in C. rewrite E in C.
  destruct (Rlt_bool _ _) eqn:EB.
  - destruct C as (C1 & _ & C3). cbn in C1. symmetry in C1.
    assert (Z : B2R x - B2R y = 0).
    { destruct (Req_dec (B2R x - B2R y) 0) as [|N]; auto. exfalso. revert C1. apply round_plus_neq_0; auto; try apply generic_format_opp; try apply generic_format_B2R; try typeclasses eauto. }
    rewrite Z, Rcompare_Eq in C3 by auto. cbn in C3. symmetry in C3. apply andb_true_iff in C3. destruct C3 as [S1 S2]. apply negb_true_iff in S2.
    assert (Nx : B2R x <= 0 /\ (B2R x = 0 -> x = mz)).
    { destruct x as [[]|[]| |[] m e h]; try discriminate S1; try discriminate Fx; cbn; [split; [lra|auto]|].
      assert (F2R (Float radix2 (Z.neg m) e) < 0) by (apply F2R_lt_0; reflexivity). cbn in H. split; [lra|]. intros Q. exfalso. cbn in Q. lra. }
    assert (Ny : 0 <= B2R y).
    { destruct y as [[]|[]| |[] m e h]; try discriminate S2; try discriminate Fy; cbn; [lra|].
      assert (0 < F2R (Float radix2 (Z.pos m) e)) by (apply F2R_gt_0; reflexivity). cbn in H. lra. }
    apply Hx, Nx. lra.
  - destruct C as [C _]. discriminate C.
Qed.
Lemma f_add_nan (x c : f64) : n_isnan (x : F64) = true -> f_add x c = B754_nan.
Proof. destruct x as [|[]| |]; try discriminate. reflexivity. Qed.
Lemma is_nan (x : f64) : n_isnan (x : F64) = true -> x = B754_nan.
Proof. destruct x as [|[]| |]; try discriminate. reflexivity. Qed.
Lemma pz (x : f64) : f_val x = XFin 0 -> x <> mz -> x = B754_zero false.
Proof. intros H N. apply val_inj; auto; discriminate. Qed.
Lemma mean_one (x : f64) : x <> mz -> n_mean [x : F64] = x.
Proof.
  intros N. assert (E1 : f_add (f_ofZ 0) x = x).
  { apply val_inj; auto.
    - rewrite f_val_add. change (f_val (f_ofZ 0)) with (val F64sem (n_ofZ 0)). rewrite (val_0 F64sem). replace (xadd (XFin 0) (f_val x)) with (f_val x) by (destruct (f_val x); cbn; auto; f_equal; ring). exact (rnd_val _ F64sem x).
    - apply add_not_mz. intros Q. discriminate Q. }
  change (n_mean [x : F64]) with (f_div (f_add (f_ofZ 0) x) (f_ofZ 1)). rewrite E1.
  destruct x as [[]|[]| |s m e h]; try reflexivity.
  assert (V1 : val F64sem (n_ofZ 1 : F64) = XFin 1) by (apply (val_ofZ _ F64sem); cbn; discriminate).
  assert (NZ : f_val (B754_finite s m e h) <> XFin 0) by (cbn; intros Q; injection Q as Q; revert Q; apply F2R_neq_0; destruct s; discriminate).
  assert (V : f_val (f_div (B754_finite s m e h) (f_ofZ 1)) = f_val (B754_finite s m e h)).
  { pose proof (val_div _ F64sem (B754_finite s m e h : F64) (n_ofZ 1 : F64)) as Q. rewrite V1 in Q. specialize (Q ltac:(intros Q'; injection Q'; lra)).
    change (f_val (f_div (B754_finite s m e h) (f_ofZ 1))) with (val F64sem (n_div (B754_finite s m e h : F64) (n_ofZ 1 : F64))). rewrite Q.
    change (val F64sem (B754_finite s m e h : F64)) with (f_val (B754_finite s m e h)).
    replace (xdiv (f_val (B754_finite s m e h)) (XFin 1)) with (f_val (B754_finite s m e h)); [exact (rnd_val _ F64sem (B754_finite s m e h : F64))|].
    cbn [f_val]. unfold xdiv. rewrite Req_bool_false by lra. f_equal. field. }
  apply val_inj; auto. intros Q. apply NZ. rewrite <- V, Q. reflexivity.
Qed.

Definition units (q b : Z) (x : f64) : Prop := exists k : Z, (Z.abs k <= 2 ^ b)%Z /\ f_val x = XFin (IZR k * bpow radix2 (- q)) /\ x <> mz.
Definition lev (q b : Z) (x : f64) : Prop := n_isnan (x : F64) = true \/ units q b x.
Lemma units_refine q b x : units q b x -> (0 <= b)%Z -> units (q + 1) (b + 1) x.
Proof.
  intros (k & K & V & N) B. exists (2 * k)%Z. split; [|split; auto].
  - rewrite Z.pow_add_r by lia. lia.
  - rewrite V. f_equal. rewrite mult_IZR. replace (- q)%Z with (1 + - (q + 1))%Z by ring. rewrite (bpow_plus radix2 1). change (bpow radix2 1) with 2. ring.
Qed.
Section Q.
Variables (q b : Z).
Hypothesis HQ : (-800 <= q <= 900)%Z.
Hypothesis HB : (0 <= b <= 51)%Z.
Lemma add_units x y : units q b x -> units q b y -> units q (b + 1) (f_add x y) /\ f_val (f_add x y) = xadd (f_val x) (f_val y).
Proof using HQ HB.
  intros (k & K & V & N) (k' & K' & V' & N').
  assert (E : f_val (f_add x y) = XFin (IZR (k + k') * bpow radix2 (- q))).
  { rewrite f_val_add, V, V'. cbn [xadd]. rewrite <- Rmult_plus_distr_r, <- plus_IZR. apply rnd_grid; [lia|]. assert (2 ^ b <= 2 ^ 51)%Z by (apply Z.pow_le_mono_r; lia). lia. }
  split.
  - exists (k + k')%Z. split; [rewrite Z.pow_add_r by lia; lia|]. split; [exact E|]. apply add_not_mz; auto.
  - rewrite E, V, V'. cbn [xadd]. f_equal. rewrite plus_IZR. ring.
Qed.
Lemma half_units x y : units q b x -> units q b y -> units (q + 1) (b + 1) (f_div (f_add x y) (f_ofZ 2)) /\
  forall rx ry, f_val x = XFin rx -> f_val y = XFin ry -> f_val (f_div (f_add x y) (f_ofZ 2)) = XFin ((rx + ry) / 2).
Proof using HQ HB.
  intros Hx Hy. destruct (add_units x y Hx Hy) as [(k & K & V & N) E].
  assert (V2 : val F64sem (n_ofZ 2 : F64) = XFin 2) by (apply (val_ofZ _ F64sem); cbn; discriminate).
  assert (EV : f_val (f_div (f_add x y) (f_ofZ 2)) = XFin (IZR k * bpow radix2 (- (q + 1)))).
  { pose proof (val_div _ F64sem (f_add x y : F64) (n_ofZ 2 : F64)) as Q. rewrite V2 in Q. specialize (Q ltac:(intros Q'; injection Q'; lra)).
    change (f_val (f_div (f_add x y) (f_ofZ 2))) with (val F64sem (n_div (f_add x y : F64) (n_ofZ 2 : F64))). rewrite Q.
    change (val F64sem (f_add x y : F64)) with (f_val (f_add x y)). rewrite V. unfold xdiv. rewrite Req_bool_false by lra.
    replace (IZR k * bpow radix2 (- q) / 2) with (IZR k * bpow radix2 (- (q + 1))).
    - apply (rnd_grid k (- (q + 1))); [lia|]. assert (2 ^ (b + 1) <= 2 ^ 52)%Z by (apply Z.pow_le_mono_r; lia). lia.
    - replace (- q)%Z with (1 + - (q + 1))%Z by ring. rewrite (bpow_plus radix2 1). change (bpow radix2 1) with 2. field. }
  split.
  - exists k. split; [auto|]. split; [exact EV|]. destruct (Z.eq_dec k 0) as [->|NZ].
    + rewrite (pz (f_add x y)); [intros Q; discriminate Q| |auto]. rewrite V. f_equal. ring.
    + intros Q. rewrite Q in EV. cbn in EV. injection EV as EV. symmetry in EV. apply Rmult_integral in EV. destruct EV as [EV|EV]; [apply eq_IZR in EV; auto|]. pose proof (bpow_gt_0 radix2 (- (q + 1))). lra.
  - intros rx ry Ex Ey. rewrite EV. f_equal. rewrite V, Ex, Ey in E. cbn [xadd] in E. injection E as E. rewrite <- E.
    replace (- q)%Z with (1 + - (q + 1))%Z by ring. rewrite (bpow_plus radix2 1). change (bpow radix2 1) with 2. field.
Qed.
End Q.

Section Inst.
Variables (q : Z) (c : f64).
Hypothesis HQ : (-700 <= q <= 700)%Z.
Hypothesis HC : whole_units q c.
Local Notation f := (fun x : F64 => n_add x (c : F64)).
Local Notation D := (lev (q + 1 + 1) 50 : F64 -> Prop).
Local Notation P0 := (lev q 48 : F64 -> Prop).
Local Notation P1 := (lev (q + 1) 49 : F64 -> Prop).
Lemma c0 : units q 48 c. Proof using HC. clear HQ. exact HC. Qed.
Lemma c1 : units (q + 1) 49 c. Proof using HC. clear HQ. apply (units_refine q 48); [exact c0|lia]. Qed.
Lemma c2 : units (q + 1 + 1) 50 c. Proof using HC. clear HQ. apply (units_refine (q + 1) 49); [exact c1|lia]. Qed.
Lemma units_fin q' b x : units q' b x -> exists r, f_val x = XFin r /\ x <> mz.
Proof using. intros (k & _ & V & N). eauto. Qed.
Lemma units_num q' b x : units q' b x -> n_isnan (x : F64) = false.
Proof using. intros (k & _ & V & _). destruct x as [|[]| |]; cbn in V; try discriminate V; reflexivity. Qed.
Lemma i_nan : f n_nan = n_nan. Proof using. reflexivity. Qed.
Lemma i_Dnan q' b : lev q' b (n_nan : F64). Proof using. left. reflexivity. Qed.
Lemma i_add x : D x -> n_isnan (x : F64) = true \/ exists r s, f_val x = XFin r /\ f_val c = XFin s /\ f_val (f_add x c) = XFin (r + s) /\ x <> mz.
Proof using HQ HC.
  intros [H|H]; [auto|right]. destruct (add_units (q + 1 + 1) 50 ltac:(lia) ltac:(lia) x c H c2) as [_ E]. destruct (units_fin _ _ _ H) as (r & R & N). destruct (units_fin _ _ _ c2) as (s & S & _).
  exists r, s. rewrite E, R, S. auto.
Qed.
Lemma i_isnan x : D x -> n_isnan (f x) = n_isnan (x : F64).
Proof using HQ HC.
  intros H. destruct (i_add x H) as [N|(r & s & R & S & E & _)]; [rewrite (is_nan x N); reflexivity|].
  rewrite !(val_isnan _ F64sem). change (val F64sem (n_add (x : F64) (c : F64))) with (f_val (f_add x c)). change (val F64sem (x : F64)) with (f_val x). rewrite R, E. reflexivity.
Qed.
Lemma i_cmp x y : D x -> D y -> n_ltb (f x) (f y) = n_ltb (x : F64) (y : F64) /\ n_leb (f x) (f y) = n_leb (x : F64) (y : F64).
Proof using HQ HC.
  intros Hx Hy. rewrite !(val_ltb _ F64sem), !(val_leb _ F64sem).
  change (val F64sem (n_add (x : F64) (c : F64))) with (f_val (f_add x c)). change (val F64sem (n_add (y : F64) (c : F64))) with (f_val (f_add y c)). change (val F64sem (x : F64)) with (f_val x). change (val F64sem (y : F64)) with (f_val y).
  destruct (i_add x Hx) as [N|(r & s & R & S & E & _)]; [rewrite (is_nan x N); split; reflexivity|].
  destruct (i_add y Hy) as [N|(r' & s' & R' & S' & E' & _)]; [rewrite (is_nan y N); rewrite E, R; split; reflexivity|].
  rewrite S in S'. injection S' as <-. rewrite E, E', R, R'. cbn. split.
  - destruct (Rlt_bool_spec (r + s) (r' + s)), (Rlt_bool_spec r r'); auto; lra.
  - destruct (Rle_bool_spec (r + s) (r' + s)), (Rle_bool_spec r r'); auto; lra.
Qed.
Lemma i_sub x y : D x -> D y -> n_sub (f x) (f y) = n_sub (x : F64) (y : F64).
Proof using HQ HC.
  intros Hx Hy. change (f_sub (f_add x c) (f_add y c) = f_sub x y).
  destruct (i_add x Hx) as [N|(r & s & R & S & E & NZ)]; [rewrite (is_nan x N); reflexivity|].
  destruct (i_add y Hy) as [N|(r' & s' & R' & S' & E' & _)].
  - rewrite (is_nan y N). change (f_add B754_nan c) with (B754_nan : f64). destruct (f_add x c) as [|[]| |], x as [|[]| |]; reflexivity.
  - rewrite S in S'. injection S' as <-. apply val_inj.
    + rewrite !f_val_sub, E, E', R, R'. f_equal. unfold xsub. cbn. f_equal. ring.
    + apply sub_not_mz. apply add_not_mz; auto.
    + apply sub_not_mz; auto.
Qed.
Lemma i_half q' b x y : (-800 <= q' <= 899)%Z -> (0 <= b <= 50)%Z -> units q' b c -> lev q' b x -> lev q' b y ->
  n_div (n_add (f x) (f y)) (n_ofZ 2) = f (n_div (n_add (x : F64) (y : F64)) (n_ofZ 2)) /\ lev (q' + 1) (b + 1) (n_div (n_add (x : F64) (y : F64)) (n_ofZ 2)).
Proof using.
  clear HQ HC. intros Q' B C Hx Hy. assert (Q : (-800 <= q' <= 900)%Z) by lia.
  change (f_div (f_add (f_add x c) (f_add y c)) (f_ofZ 2) = f_add (f_div (f_add x y) (f_ofZ 2)) c /\ lev (q' + 1) (b + 1) (f_div (f_add x y) (f_ofZ 2))).
  destruct Hx as [N|Ux].
  { rewrite (is_nan x N). change (f_add B754_nan c) with (B754_nan : f64). split; [|left]; reflexivity. }
  destruct Hy as [N|Uy].
  { rewrite (is_nan y N). change (f_add B754_nan c) with (B754_nan : f64). assert (Z : forall z : f64, f_add z B754_nan = B754_nan) by (intros [|[]| |]; reflexivity). rewrite !Z. split; [|left]; reflexivity. }
  destruct (add_units q' b Q ltac:(lia) x c Ux C) as [Ax Ex]. destruct (add_units q' b Q ltac:(lia) y c Uy C) as [Ay Ey].
  destruct (half_units q' (b + 1) Q ltac:(lia) _ _ Ax Ay) as [U1 H1]. destruct (half_units q' b Q ltac:(lia) _ _ Ux Uy) as [U2 H2].
  destruct (add_units (q' + 1) (b + 1) ltac:(lia) ltac:(lia) _ c U2 (units_refine _ _ _ C ltac:(lia))) as [U3 H3].
  destruct (units_fin _ _ _ Ux) as (rx & Rx & _). destruct (units_fin _ _ _ Uy) as (ry & Ry & _). destruct (units_fin _ _ _ C) as (rc & Rc & _).
  rewrite Rx, Rc in Ex. rewrite Ry, Rc in Ey. cbn [xadd] in Ex, Ey. specialize (H1 _ _ Ex Ey). specialize (H2 _ _ Rx Ry). rewrite H2, Rc in H3. cbn [xadd] in H3. split; [|right; exact U2].
  apply val_inj; [rewrite H1, H3; f_equal; field| |]; [destruct U1 as (? & _ & _ & U1); exact U1|destruct U3 as (? & _ & _ & U3); exact U3].
Qed.
Lemma lev_up q' b x : (0 <= b)%Z -> lev q' b x -> lev (q' + 1) (b + 1) x.
Proof using. intros B [H|H]; [left; auto|right; apply units_refine; auto]. Qed.
Lemma P0D x : P0 x -> D x. Proof using. clear. intros H. apply (lev_up (q + 1) 49); [lia|]. apply (lev_up q 48); [lia|exact H]. Qed.
Lemma lev_mean1 q' b x : lev q' b x -> n_mean [x : F64] = x.
Proof using. intros [H|(k & _ & _ & N)]; [rewrite (is_nan x H); reflexivity|apply mean_one; auto]. Qed.
Lemma i_mean1f x : D x -> n_mean [f x] = f x.
Proof using HQ HC. intros H. apply mean_one. destruct (i_add x H) as [N|(r & s & R & S & E & NZ)]; [rewrite (is_nan x N); discriminate|apply add_not_mz; auto]. Qed.

Lemma chain_moved L cubic clipped (trsl wet : list F64) m dt tau (k : kr_args F64) : quantised q trsl ->
  chain L cubic clipped (moved c trsl) wet 1 m dt tau k = chain L cubic clipped trsl wet 1 m dt tau k.
Proof using HQ HC.
  intros H. apply (chain_f f D); auto using i_sub, i_mean1f.
  - intros x Hx. apply (lev_mean1 _ _ x Hx).
  - intros x Hx. apply P0D. exact (H x Hx).
Qed.
Lemma nearby_moved L cubic (pmin pmax wet F : list F64) n mp len fr pol a b ap waa alpha thr : quantised q pmin -> quantised q pmax ->
  let rain := fun pmin pmax =>
    do pref <- nearby_determine_reference_level pmin pmax wet n mp;
    let '(cmin, cmax) := nearby_correct_received_signals pmin pmax wet pref in
    nearby_rainfall_retrival L cubic pref cmin cmax F len fr pol a b ap waa alpha thr in
  rain (moved c pmin) (moved c pmax) = rain pmin pmax.
Proof using HQ HC.
  intros H0 H1. refine (nearby_rain_f f D i_nan (i_Dnan _ _) i_isnan _ _ i_sub P0 P1 _ _ (i_Dnan _ _) _ _ L cubic pmin pmax wet F n mp len fr pol a b ap waa alpha thr H0 H1).
  - intros x y Hx Hy. apply i_cmp; auto.
  - intros x y Hx Hy. apply i_cmp; auto.
  - intros x. apply (lev_up q 48). lia.
  - intros x. apply (lev_up (q + 1) 49). lia.
  - intros x y. apply (i_half q 48); [lia|lia|exact c0].
  - intros x y. apply (i_half (q + 1) 49); [lia|lia|exact c1].
Qed.
Lemma reference_moved (pmin pmax wet : list F64) n mp : quantised q pmin -> quantised q pmax ->
  nearby_determine_reference_level (moved c pmin) (moved c pmax) wet n mp = (do p <- nearby_determine_reference_level pmin pmax wet n mp; Ok (moved c p)).
Proof using HQ HC.
  intros H0 H1. refine (proj1 (reference_f f D i_nan (i_Dnan _ _) i_isnan _ P0 P1 _ _ (i_Dnan _ _) _ _ pmin pmax wet n mp H0 H1)).
  - intros x y Hx Hy. apply i_cmp; auto.
  - intros x. apply (lev_up q 48). lia.
  - intros x. apply (lev_up (q + 1) 49). lia.
  - intros x y. apply (i_half q 48); [lia|lia|exact c0].
  - intros x y. apply (i_half (q + 1) 49); [lia|lia|exact c1].
Qed.
Lemma row_moved w k (l : list F64) : quantised q l ->
  rolling amax w k (moved c l) = (do r <- rolling amax w k l; Ok (moved c r)) /\ (forall r, rolling amax w k l = Ok r -> length r = length l /\ map2 n_sub (moved c l) (moved c r) = map2 n_sub l r).
Proof using HQ HC.
  intros H. assert (HD : forall x, In x l -> D x) by (intros x Hx; apply P0D; exact (H x Hx)).
  destruct (row_max f D i_nan (i_Dnan _ _) i_isnan (fun x y Hx Hy => proj1 (i_cmp x y Hx Hy)) w k l HD) as [A B]. split; [exact A|]. intros r Hr. split.
  - unfold rolling in Hr. destruct (rolling_ok w k (length l)); [|discriminate]. injection Hr as <-. rewrite map_length, seq_length. reflexivity.
  - apply (map2_sub_f f D i_sub); auto. apply B; auto.
Qed.
End Inst.

Lemma wetdry_moved q T (cs : list F64) (pmin : list (list F64)) lengths ds radius tP tPL ml iv tp mh : (-700 <= q <= 700)%Z -> length cs = length pmin ->
  (forall c, In c cs -> whole_units q c) -> (forall l, In l pmin -> quantised q l) ->
  nearby_wetdry T (moved_each cs pmin) lengths ds radius tP tPL ml iv tp mh = nearby_wetdry T pmin lengths ds radius tP tPL ml iv tp mh.
Proof.
  intros Q E HC HP. assert (LO : length (moved_each cs pmin) = length pmin) by (unfold moved_each; rewrite map2_length; lia).
  unfold nearby_wetdry. destruct (Nat.eqb iv 0); auto. destruct (negb _); auto.
  assert (K : forall w k, mapM (rolling amax w k) (moved_each cs pmin) = (do r <- mapM (rolling amax w k) pmin; Ok (moved_each cs r)) /\
     (forall r, mapM (rolling amax w k) pmin = Ok r -> map2 (map2 n_sub) (moved_each cs pmin) (moved_each cs r) = map2 (map2 n_sub) pmin r)).
  { intros w k. clear LO. revert pmin E HP. induction cs as [|c cs IH]; intros [|l pmin] E HP; try discriminate.
    - split; [reflexivity|]. intros r X. injection X as <-. reflexivity.
    - destruct (row_moved q c Q (HC c (or_introl eq_refl)) w k l (HP l (or_introl eq_refl))) as [A B].
      destruct (IH (fun z Hz => HC z (or_intror Hz)) pmin ltac:(injection E; auto) (fun z Hz => HP z (or_intror Hz))) as [I1 I2].
      unfold moved_each, map2 in *. cbn [combine map fst snd mapM] in *. rewrite A. destruct (rolling amax w k l) as [r0|]; [|split; [reflexivity|discriminate]]. cbn [bind].
      rewrite I1. destruct (mapM (rolling amax w k) pmin) as [r1|]; [|split; [reflexivity|discriminate]]. cbn [bind]. split; [reflexivity|].
      intros r X. injection X as <-. cbn [combine map fst snd]. rewrite (I2 r1 eq_refl). f_equal. apply (proj2 (B r0 eq_refl)). }
  destruct (K (tp * 60 / iv)%nat (mh * 60 / iv)%nat) as [K1 K2]. rewrite K1. destruct (mapM (rolling amax (tp * 60 / iv)%nat (mh * 60 / iv)%nat) pmin) as [mx|]; auto. cbn [bind].
  rewrite (K2 mx eq_refl). rewrite LO. 
  replace (map (fun _ : list F64 => repeat (n_nan : F64) T) (moved_each cs pmin)) with (map (fun _ : list F64 => repeat (n_nan : F64) T) pmin); auto.
  clear - LO. revert LO. generalize (moved_each cs pmin). induction pmin; intros [|y l] X; try discriminate; auto. simpl. f_equal. apply IHpmin. injection X; auto.
Qed.

Lemma baseline_moved (c : F64) (trsl wet : list F64) : not_minus_zero trsl ->
  baseline_constant (moved c trsl) wet 1 = (do b <- baseline_constant trsl wet 1; Ok (moved c b)).
Proof.
  intros H. apply (baseline_f (fun x : F64 => n_add x c) (fun x : F64 => x <> mz)).
  - intros x Hx. apply mean_one; auto.
  - intros x Hx. apply mean_one. apply add_not_mz; auto.
  - exact H.
Qed.
