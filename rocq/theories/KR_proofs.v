From Coq Require Import List ZArith Bool String Lia Arith Reals Lra.
From Flocq Require Import Core.
From Verif Require Import Base Num NumList NpOps Libm RealSpec Itu_table KR_model KR_spec.
Import ListNotations.
Local Open Scope nat_scope.

Lemma bcast2_single {A B C} (f : A -> B -> C) l y : bcast2 f l [y] = Ok (map (fun x => f x y) l).
Proof.
  unfold bcast2. destruct l as [|x [|x' l]]; simpl; reflexivity.
Qed.

(** ** division of non-negative numbers *)
Section Arith.
Context {O : numops} (S : numsem O).

Lemma val_nonneg (x : O) : nonneg x <-> xleb (XFin 0) (val S x) = true.
Proof. unfold nonneg. rewrite (val_leb _ S), (val_0 S). reflexivity. Qed.

Lemma val_positive (x : O) : positive x <-> xltb (XFin 0) (val S x) = true.
Proof. unfold positive. rewrite (val_ltb _ S), (val_0 S). reflexivity. Qed.

Lemma finite_val (x : O) : finite x <-> exists r, val S x = XFin r.
Proof.
  unfold finite. rewrite (val_isnan _ S), (val_isinf _ S).
  destruct (val S x); simpl; split; intros H; try (destruct H; discriminate); eauto;
    destruct H; discriminate.
Qed.

Lemma pos_nonneg (x : O) : positive x -> nonneg x.
Proof. unfold positive, nonneg. apply (ltb_leb S). Qed.

Lemma nonneg_not_nan (x : O) : nonneg x -> n_isnan x = false.
Proof. intros H. apply (leb_nan S) in H. tauto. Qed.

Lemma xdiv_mono x x' r : (0 < r)%R -> xleb (XFin 0) x = true -> xleb x x' = true ->
  xleb (xdiv x (XFin r)) (xdiv x' (XFin r)) = true.
Proof.
  intros Hr Hx Hxx.
  destruct x as [| |a|], x' as [| |a'|]; simpl in *; try discriminate; auto; xcases; try lra; simpl; auto; xcases; auto; try lra.
  exfalso. assert (a * / r <= a' * / r)%R by (apply Rmult_le_compat_r; [left; apply Rinv_0_lt_compat|]; auto). unfold Rdiv in *. lra.
Qed.

Lemma xdiv_nonneg x r : (0 < r)%R -> xleb (XFin 0) x = true -> xleb (XFin 0) (xdiv x (XFin r)) = true.
Proof.
  intros Hr Hx.
  destruct x as [| |a|]; simpl in *; try discriminate; auto; xcases; try lra; simpl; auto; xcases; auto; try lra.
  exfalso. assert (0 <= a / r)%R by (apply Rmult_le_pos; [lra|left; apply Rinv_0_lt_compat; auto]). lra.
Qed.

Lemma div_nonneg (x y : O) : nonneg x -> positive y -> finite y -> nonneg (n_div x y).
Proof.
  rewrite finite_val. rewrite val_positive, !val_nonneg. intros Hx Hy (r & E). rewrite E in Hy.
  apply xltb_fin in Hy. rewrite (val_div _ S) by (rewrite E; intros Q; injection Q; lra).
  rewrite E. rewrite <- (rnd_0 S). apply (rnd_mono _ S). apply xdiv_nonneg; auto.
Qed.

Lemma div_mono (x x' y : O) : nonneg x -> n_leb x x' = true -> positive y -> finite y ->
  n_leb (n_div x y) (n_div x' y) = true.
Proof.
  rewrite finite_val. rewrite val_positive, !val_nonneg, !(val_leb _ S). intros Hx Hxx Hy (r & E). rewrite E in Hy.
  apply xltb_fin in Hy. rewrite !(val_div _ S) by (rewrite E; intros Q; injection Q; lra).
  rewrite E. apply (rnd_mono _ S). apply xdiv_mono; auto.
Qed.

Lemma inv_nonneg (y : O) : positive y -> nonneg (n_div one y).
Proof.
  rewrite val_positive, val_nonneg. intros Hy.
  assert (V1 : val S one = XFin 1) by (apply (val_ofZ _ S); simpl; discriminate).
  rewrite (val_div _ S) by (intros E; rewrite E in Hy; simpl in Hy; xcases; lra).
  rewrite V1, <- (rnd_0 S). apply (rnd_mono _ S).
  destruct (val S y) as [| |r|]; try discriminate.
  - apply xltb_fin in Hy. apply xdiv_nonneg; auto. apply xleb_fin; lra.
  - apply xleb_fin; lra.
Qed.
End Arith.

(** ** elementwise form of the masked power law *)
Section PL.
Context {O : numops} (S : numsem O) (L : libm O).

Definition rate (al e R_min x : O) : O :=
  if n_isnan x then n_nan
  else
    let r := if n_leb zero x then m_pow L (n_div x al) e else zero in
    if n_ltb r R_min then zero else r.

Definition single (c : coef O) (x : O) : Prop := coef_list c = [x].

Lemma power_law_elementwise A L_km (a b : coef O) (R_min a0 e : O) :
  coef_list a = [a0] -> coef_inv b = Ok [e] ->
  power_law L A L_km a b R_min = Ok (map (rate (n_mul a0 L_km) e R_min) A).
Proof.
  intros Ea Eb. unfold power_law. rewrite Ea, Eb. simpl (map (fun x => n_mul x L_km) [a0]).
  rewrite bcast2_single. simpl bind. rewrite bcast2_single. simpl bind.
  set (nan_index := map n_isnan A).
  set (mask := map2 (fun (n : bool) x => negb n && n_leb zero x) nan_index A).
  assert (LN : List.length nan_index = List.length A) by apply map_length.
  assert (LM : List.length mask = List.length A) by (unfold mask; rewrite map2_length; lia).
  unfold mask_assign. rewrite !map_length. unfold mask_select at 1. rewrite !map_length, Nat.eqb_refl.
  simpl bind. rewrite map_map. f_equal.
  set (R0 := mask_fill nan_index n_nan (repeat zero (List.length A))).
  assert (L0 : List.length R0 = List.length A)
    by (unfold R0; rewrite mask_fill_length; rewrite repeat_length; auto).
  set (R1 := scatter _ _ _).
  assert (L1 : List.length R1 = List.length A) by (unfold R1; rewrite scatter_length; auto).
  assert (LX : List.length (map2 (fun (n : bool) r => negb n && n_ltb r R_min) nan_index R1) = List.length A)
    by (rewrite map2_length; lia).
  apply get_ext with n_nan.
  { rewrite mask_fill_length, map_length; lia. }
  rewrite mask_fill_length by lia. rewrite L1. intros i Hi.
  rewrite mask_fill_get by lia.
  rewrite get_map2 with (da := false) (db := n_nan) by lia.
  unfold nan_index at 1. rewrite get_map with (d := n_nan) by auto.
  rewrite get_map with (d := n_nan) by auto.
  assert (G1 : get n_nan R1 i =
     if negb (n_isnan (get n_nan A i)) && n_leb zero (get n_nan A i)
     then m_pow L (n_div (get n_nan A i) (n_mul a0 L_km)) e
     else if n_isnan (get n_nan A i) then n_nan else zero).
  { unfold R1. rewrite scatter_select with (db := n_nan) by lia.
    unfold mask. rewrite get_map2 with (da := false) (db := n_nan) by lia.
    unfold nan_index. rewrite get_map with (d := n_nan) by auto.
    destruct (negb (n_isnan (get n_nan A i)) && n_leb zero (get n_nan A i)); auto.
    unfold R0. rewrite mask_fill_get by (rewrite repeat_length; lia).
    unfold nan_index. rewrite get_map with (d := n_nan) by auto.
    destruct (n_isnan (get n_nan A i)); auto.
    apply get_repeat; auto. }
  rewrite !G1. unfold rate. destruct (n_isnan (get n_nan A i)); simpl; auto.
Qed.

Hypothesis sane : pow_sane L.

Lemma rate_nan_iff al e R_min x : positive al -> finite al -> nonneg e ->
  (n_isnan (rate al e R_min x) = true <-> n_isnan x = true).
Proof.
  intros Hal Fal He. unfold rate. destruct (n_isnan x) eqn:N.
  - split; auto. intros; apply (isnan_nan S).
  - cbv zeta. split; [|discriminate].
    assert (Z : n_isnan (zero : O) = false) by (apply (isnan_ofZ S); simpl; discriminate).
    destruct (n_leb zero x) eqn:Hx.
    + assert (n_isnan (m_pow L (n_div x al) e) = false).
      { apply (nonneg_not_nan S). apply sane; auto. apply (div_nonneg S); auto. }
      destruct (n_ltb _ _); congruence.
    + destruct (n_ltb _ _); congruence.
Qed.

Lemma rate_range al e R_min x : positive al -> finite al -> nonneg e -> n_isnan x = false ->
  nonneg (rate al e R_min x) /\
  (n_ltb x (n_ofZ 0) = true -> rate al e R_min x = n_ofZ 0) /\
  (rate al e R_min x = n_ofZ 0 \/ n_ltb (rate al e R_min x) R_min = false).
Proof.
  intros Hal Fal He N. unfold rate. rewrite N. cbv zeta.
  assert (Z : n_isnan (zero : O) = false) by (apply (isnan_ofZ S); simpl; discriminate).
  assert (Z2 : nonneg (zero : O)) by (apply (leb_refl S); auto).
  assert (P : n_leb zero x = true -> nonneg (m_pow L (n_div x al) e)).
  { intros. apply sane; auto. apply (div_nonneg S); auto. }
  split; [|split].
  - destruct (n_leb zero x) eqn:Hx; destruct (n_ltb _ _); auto.
  - intros Hx. destruct (n_leb zero x) eqn:Hx2.
    + apply (leb_ltb_false S) in Hx2. unfold zero in Hx2. congruence.
    + destruct (n_ltb zero R_min); reflexivity.
  - destruct (n_leb zero x) eqn:Hx.
    + destruct (n_ltb (m_pow L (n_div x al) e) R_min) eqn:E; [left; reflexivity|right; auto].
    + destruct (n_ltb zero R_min); left; reflexivity.
Qed.

Hypothesis mono : pow_mono L.

Lemma rate_mono al e R_min x x' : positive al -> finite al -> nonneg e ->
  n_leb x x' = true -> n_leb (rate al e R_min x) (rate al e R_min x') = true.
Proof.
  intros Hal Fal He Hxx. destruct (leb_nan S _ _ Hxx) as [N N'].
  assert (Z : n_isnan (zero : O) = false) by (apply (isnan_ofZ S); simpl; discriminate).
  assert (Z2 : n_leb (zero : O) zero = true) by (apply (leb_refl S); auto).
  unfold rate. rewrite N, N'. cbv zeta.
  assert (P : forall y, n_leb zero y = true -> n_leb zero (m_pow L (n_div y al) e) = true).
  { intros. apply sane; auto. apply (div_nonneg S); auto. }
  set (r := if n_leb zero x then m_pow L (n_div x al) e else zero).
  set (r' := if n_leb zero x' then m_pow L (n_div x' al) e else zero).
  assert (R0 : n_leb zero r' = true) by (unfold r'; destruct (n_leb zero x') eqn:E; auto).
  assert (RR : n_leb r r' = true).
  { unfold r, r'. destruct (n_leb zero x) eqn:E.
    - rewrite (leb_trans S _ _ _ E Hxx). apply mono; auto.
      + apply (div_nonneg S); auto.
      + apply (div_mono S); auto.
    - exact R0. }
  destruct (n_ltb r R_min) eqn:E1, (n_ltb r' R_min) eqn:E2; auto.
  exfalso. rewrite (val_ltb _ S) in E1, E2. rewrite (val_leb _ S) in RR.
  pose proof (xleb_ltb_trans _ _ _ RR E2). congruence.
Qed.
End PL.

(** ** calc_R_from_A with scalar coefficients *)
Section Calc.
Context {O : numops} (S : numsem O) (L : libm O).
Variable cubic : list O -> list O -> O -> O.
Notation calc := (calc_R_from_A L cubic).

Lemma coef_inv_scalar (b : O) : positive b -> coef_inv (CScalar b) = Ok [n_div one b].
Proof.
  intros H. unfold coef_inv. destruct (n_eqb b zero) eqn:E; auto. exfalso.
  rewrite (val_eqb _ S) in E. apply xeqb_true in E as [E _].
  apply (val_positive S) in H. rewrite E in H. unfold zero in H. rewrite (val_0 S) in H.
  simpl in H. xcases; lra.
Qed.

Lemma calc_scalar A L_km (a b R_min : O) ap : positive b ->
  calc A L_km None None (Some (CScalar a)) (Some (CScalar b)) ap R_min
  = Ok (map (rate L (n_mul a L_km) (n_div one b) R_min) A).
Proof.
  intros. simpl. apply power_law_elementwise; auto. apply coef_inv_scalar; auto.
Qed.

Lemma calc_combos A L_km f pol a b ap R_min :
  ~ (f <> None /\ pol <> None /\ a = None /\ b = None) ->
  ~ (f = None /\ pol = None /\ a <> None /\ b <> None) ->
  calc A L_km f pol a b ap R_min = Err ValueError.
Proof.
  intros H1 H2. unfold calc_R_from_A. destruct f, pol, a, b; auto; exfalso.
  - apply H1. repeat split; auto; discriminate.
  - apply H2. repeat split; auto; discriminate.
Qed.

Lemma calc_nan (sane : pow_sane L) A L_km (a b R_min : O) ap :
  positive b -> positive (n_mul a L_km) -> finite (n_mul a L_km) ->
  exists R, calc A L_km None None (Some (CScalar a)) (Some (CScalar b)) ap R_min = Ok R /\
    List.length R = List.length A /\
    forall i, i < List.length A ->
      (missing (get n_nan R i) <-> missing (get n_nan A i)) /\
      (~ missing (get n_nan A i) -> nonneg (get n_nan R i)) /\
      (n_ltb (get n_nan A i) (n_ofZ 0) = true -> get n_nan R i = n_ofZ 0) /\
      (~ missing (get n_nan A i) -> get n_nan R i = n_ofZ 0 \/ n_ltb (get n_nan R i) R_min = false).
Proof.
  intros Hb Hal Fal. eexists; split; [apply calc_scalar; auto|].
  split; [apply map_length|]. intros i Hi. rewrite get_map with (d := n_nan) by auto.
  assert (He : nonneg (n_div one b)) by (apply (inv_nonneg S); auto).
  split; [apply (rate_nan_iff S L sane); auto|].
  unfold missing. split; [|split].
  - intros Hm. apply not_true_is_false in Hm. apply (rate_range S L sane); auto.
  - intros Hx. apply (rate_range S L sane); auto. apply (ltb_nan S) in Hx. tauto.
  - intros Hm. apply not_true_is_false in Hm. apply (rate_range S L sane); auto.
Qed.

Lemma calc_mono (sane : pow_sane L) (mono : pow_mono L) A A' L_km (a b R_min : O) ap R R' :
  positive b -> positive (n_mul a L_km) -> finite (n_mul a L_km) ->
  calc A L_km None None (Some (CScalar a)) (Some (CScalar b)) ap R_min = Ok R ->
  calc A' L_km None None (Some (CScalar a)) (Some (CScalar b)) ap R_min = Ok R' ->
  forall i j, i < List.length A -> j < List.length A' ->
  n_leb (get n_nan A i) (get n_nan A' j) = true -> n_leb (get n_nan R i) (get n_nan R' j) = true.
Proof.
  intros Hb Hal Fal. rewrite !calc_scalar by auto. intros E E'; injection E as <-; injection E' as <-.
  intros i j Hi Hj Hle. rewrite !get_map with (d := n_nan) by auto.
  apply (rate_mono S L sane mono); auto. apply (inv_nonneg S); auto.
Qed.

(** a one-element coefficient array behaves as the scalar *)
Lemma calc_single_freq A L_km f pol ap a b R_min :
  positive b ->
  a_b cubic [f] (PolArr [pol]) ap = Ok ([a], [b]) ->
  calc A L_km (Some [f]) (Some (PolStr pol)) None None ap R_min =
  calc A L_km None None (Some (CScalar a)) (Some (CScalar b)) ap R_min.
Proof.
  intros Hb E. rewrite calc_scalar by auto. unfold calc_R_from_A. rewrite E. cbn [bind fst snd].
  apply power_law_elementwise; auto.
Qed.

Lemma calc_str_pol_multi A L_km f s ap R_min :
  1 < List.length f ->
  calc A L_km (Some f) (Some (PolStr s)) None None ap R_min = Err ValueError.
Proof.
  intros. unfold calc_R_from_A, a_b. cbn [List.length].
  destruct (Nat.eqb_spec (List.length f) 1); [lia|]. reflexivity.
Qed.
End Calc.

(** ** a_b *)
Section AB.
Context {O : numops} (S : numsem O).
Variable cubic : list O -> list O -> O -> O.

Lemma str_isin_iff l s : str_isin l s = true <-> In s l.
Proof.
  unfold str_isin. rewrite existsb_exists. split.
  - intros (x & H & E). apply String.eqb_eq in E. subst; auto.
  - intros H. exists s. split; auto. apply String.eqb_refl.
Qed.

Lemma val_lit0 z : (Z.abs z <= 2 ^ 53)%Z -> val S (n_lit z 0) = XFin (IZR z).
Proof.
  intros H. unfold n_lit. simpl Z.of_nat. change (10 ^ 0)%Z with 1%Z.
  assert (V1 : val S (n_ofZ 1) = XFin 1) by (apply (val_ofZ _ S); simpl; discriminate).
  rewrite (val_div _ S) by (rewrite V1; intros Q; injection Q; lra).
  rewrite V1. rewrite (val_ofZ _ S) by auto. simpl. xcases; try lra.
  replace (IZR z / 1)%R with (IZR z) by lra. rewrite <- (val_ofZ _ S) by auto. apply rnd_val.
Qed.

Lemma table_ends ap t : known_table ap = Some t ->
  val S (get n_nan (row (O := O) t 0) 0) = XFin 1 /\
  val S (get n_nan (row (O := O) t 0) (List.length (row (O := O) t 0) - 1)) = XFin 100.
Proof.
  intros E. unfold known_table in E.
  destruct (String.eqb ap "ITU_2003"); [injection E as <-|destruct (String.eqb ap "ITU_2005"); [injection E as <-|discriminate]].
  - split.
    + change (val S (n_lit 1 0) = XFin 1). apply val_lit0. simpl; discriminate.
    + change (val S (n_lit 100 0) = XFin 100). apply val_lit0. simpl; discriminate.
  - split.
    + change (val S (n_lit 1 0) = XFin 1). apply val_lit0. simpl; discriminate.
    + change (val S (n_lit 100 0) = XFin 100). apply val_lit0. simpl; discriminate.
Qed.

Lemma V1 : val S (n_ofZ 1) = XFin 1. Proof. apply (val_ofZ _ S); simpl; discriminate. Qed.
Lemma V100 : val S (n_ofZ 100) = XFin 100. Proof. apply (val_ofZ _ S); simpl; discriminate. Qed.

Lemma interp_ok ap t ys f : known_table ap = Some t ->
  (forall x, In x f -> in_range x) ->
  interp1d_cubic cubic (row t 0) ys f = Ok (map (cubic (row t 0) ys) f).
Proof.
  intros E H. destruct (table_ends ap t E) as [T1 T2]. unfold interp1d_cubic.
  destruct (existsb _ f) eqn:X1.
  { apply existsb_exists in X1 as (x & Hx & Lx). destruct (H x Hx) as [A _].
    rewrite (val_ltb _ S) in A, Lx. rewrite V1 in A. rewrite T1 in Lx. congruence. }
  destruct (existsb (fun v => n_ltb _ v) f) eqn:X2; auto.
  apply existsb_exists in X2 as (x & Hx & Lx). destruct (H x Hx) as [_ A].
  rewrite (val_ltb _ S) in A, Lx. rewrite V100 in A. rewrite T2 in Lx. congruence.
Qed.

Lemma interp_err ap t ys f : known_table ap = Some t ->
  (exists x, In x f /\ ~ in_range x) -> interp1d_cubic cubic (row t 0) ys f = Err ValueError.
Proof.
  intros E (x & Hx & NR). destruct (table_ends ap t E) as [T1 T2]. unfold interp1d_cubic.
  destruct (existsb _ f) eqn:X1; auto.
  destruct (existsb (fun v => n_ltb _ v) f) eqn:X2; auto.
  exfalso. apply NR. split; apply not_true_is_false; intros C.
  - assert (existsb (fun v => n_ltb v (get n_nan (row t 0) 0)) f = true).
    { apply existsb_exists. exists x; split; auto. rewrite (val_ltb _ S) in *. rewrite T1. rewrite V1 in C. auto. }
    congruence.
  - assert (existsb (fun v => n_ltb (get n_nan (row t 0) (List.length (row (O := O) t 0) - 1)) v) f = true).
    { apply existsb_exists. exists x; split; auto. rewrite (val_ltb _ S) in *. rewrite T2. rewrite V100 in C. auto. }
    congruence.
Qed.

Lemma np_fold_in lt (x : O) l : In (np_fold lt x l) (x :: l).
Proof.
  unfold np_fold. revert x. induction l as [|v l IH]; intros x; simpl; auto.
  specialize (IH (if n_isnan x then x else if n_isnan v then v else if lt v x then v else x)).
  destruct IH as [E|E]; [|auto].
  rewrite <- E. destruct (n_isnan x), (n_isnan v), (lt v x); auto.
Qed.

Lemma a_b_reject f pol ap :
  (List.length f <> List.length (pols f pol) \/ f = [] \/
   (exists x, In x f /\ ~ in_range x) \/
   (exists s, In s (pols f pol) /\ ~ horizontal s /\ ~ vertical s) \/
   (ap <> "ITU_2003"%string /\ ap <> "ITU_2005"%string)) ->
  a_b cubic f pol ap = Err ValueError.
Proof.
  intros H. unfold a_b. fold (pols f pol).
  destruct (Nat.eqb_spec (List.length f) (List.length (pols f pol))) as [EL|NL]; [cbn [negb]|reflexivity].
  destruct H as [H|H]; [contradiction|].
  destruct f as [|x0 f0]; [reflexivity|]. destruct H as [H|H]; [discriminate|].
  set (f := x0 :: f0) in *. simpl np_min. simpl np_max. cbn [bind].
  destruct (n_ltb _ _ || n_ltb _ _); auto.
  destruct (forallb _ (pols f pol)) eqn:FP; [cbn [negb]|reflexivity].
  assert (PV : forall s, In s (pols f pol) -> horizontal s \/ vertical s).
  { intros s Hs. rewrite forallb_forall in FP. specialize (FP s Hs). apply str_isin_iff in FP.
    apply (in_app_or pol_v_str_variants pol_h_str_variants) in FP as [I|I]; [right|left]; exact I. }
  destruct H as [H|[(s & Hs & NH & NV)|[N1 N2]]].
  - destruct (String.eqb ap "ITU_2003") eqn:E3.
    { cbn [bind]. rewrite (interp_err ap ITU_table_2003) by (unfold known_table; rewrite ?E3; auto). auto. }
    destruct (String.eqb ap "ITU_2005") eqn:E5; [|reflexivity].
    cbn [bind]. rewrite (interp_err ap ITU_table_2005) by (unfold known_table; rewrite ?E3, ?E5; auto). auto.
  - destruct (PV s Hs); contradiction.
  - apply String.eqb_neq in N1, N2. rewrite N1, N2. reflexivity.
Qed.

Lemma mask_assign_select (mask : list bool) (b a : list O) :
  List.length mask = List.length a ->
  exists r, mask_assign mask (mask_select n_nan mask b) a = Ok r /\ List.length r = List.length a /\
    forall i, i < List.length a ->
      get n_nan r i = if get false mask i then get n_nan b i else get n_nan a i.
Proof.
  intros LM. unfold mask_assign. rewrite mask_select_length, Nat.eqb_refl. eexists; split; [reflexivity|].
  split; [apply scatter_length|]. intros i Hi.
  rewrite <- (map_id (mask_select n_nan mask b)).
  rewrite scatter_select with (db := n_nan) by auto. reflexivity.
Qed.

Lemma hv_excl s : horizontal s -> vertical s -> False.
Proof.
  unfold horizontal, vertical. simpl. intros [<-|[<-|[<-|[<-|[]]]]] [H|[H|[H|[H|[]]]]]; discriminate.
Qed.

Lemma a_b_accept f pol ap t :
  List.length f = List.length (pols f pol) -> f <> [] ->
  (forall x, In x f -> in_range x) ->
  (forall s, In s (pols f pol) -> horizontal s \/ vertical s) ->
  known_table ap = Some t ->
  exists a b, a_b cubic f pol ap = Ok (a, b) /\ List.length a = List.length f /\ List.length b = List.length f /\
    forall i, i < List.length f ->
      (horizontal (get ""%string (pols f pol) i) ->
         get n_nan a i = cubic (row t 0) (row t 1) (get n_nan f i) /\
         get n_nan b i = cubic (row t 0) (row t 3) (get n_nan f i)) /\
      (vertical (get ""%string (pols f pol) i) ->
         get n_nan a i = cubic (row t 0) (row t 2) (get n_nan f i) /\
         get n_nan b i = cubic (row t 0) (row t 4) (get n_nan f i)).
Proof.
  intros EL NE HR HP HT. unfold a_b. fold (pols f pol).
  rewrite (proj2 (Nat.eqb_eq _ _) EL). cbn [negb].
  assert (HM : exists fmin fmax, np_min f = Ok fmin /\ np_max f = Ok fmax /\ in_range fmin /\ in_range fmax).
  { destruct f as [|x f0]; [congruence|]. simpl. eexists _, _. repeat split; auto; apply HR; apply np_fold_in. }
  destruct HM as (fmin & fmax & -> & -> & [R1 _] & [_ R2]). cbn [bind]. rewrite R1, R2. cbn [orb].
  assert (FP : forallb (str_isin (pol_v_str_variants ++ pol_h_str_variants)) (pols f pol) = true).
  { apply forallb_forall. intros s Hs. apply str_isin_iff. apply in_or_app.
    destruct (HP s Hs); [right|left]; auto. }
  rewrite FP. cbn [negb].
  assert (TT : (if String.eqb ap "ITU_2003" then Ok ITU_table_2003
               else if String.eqb ap "ITU_2005" then Ok ITU_table_2005
               else Err ValueError) = Ok t).
  { unfold known_table in HT. destruct (String.eqb ap "ITU_2003"); [congruence|].
    destruct (String.eqb ap "ITU_2005"); congruence. }
  rewrite TT. cbn [bind].
  rewrite !(interp_ok ap t) by auto. cbn [bind].
  set (mv := map (str_isin pol_v_str_variants) (pols f pol)).
  set (mh := map (str_isin pol_h_str_variants) (pols f pol)).
  assert (LV : List.length mv = List.length f) by (unfold mv; rewrite map_length; auto).
  assert (LH : List.length mh = List.length f) by (unfold mh; rewrite map_length; auto).
  assert (LN : List.length (repeat (n_nan : O) (List.length f)) = List.length f) by apply repeat_length.
  destruct (mask_assign_select mh (map (cubic (row t 0) (row t 1)) f) (repeat n_nan (List.length f)))
    as (a1 & E1 & L1 & G1); [lia|]. rewrite E1. cbn [bind].
  destruct (mask_assign_select mv (map (cubic (row t 0) (row t 2)) f) a1) as (a2 & E2 & L2 & G2); [lia|].
  rewrite E2. cbn [bind].
  destruct (mask_assign_select mh (map (cubic (row t 0) (row t 3)) f) (repeat n_nan (List.length f)))
    as (b1 & E3 & L3 & G3); [lia|]. rewrite E3. cbn [bind].
  destruct (mask_assign_select mv (map (cubic (row t 0) (row t 4)) f) b1) as (b2 & E4 & L4 & G4); [lia|].
  rewrite E4. cbn [bind].
  exists a2, b2. split; [reflexivity|]. split; [lia|]. split; [lia|]. intros i Hi.
  assert (MV : get false mv i = true <-> vertical (get ""%string (pols f pol) i)).
  { unfold mv. rewrite get_map with (d := ""%string) by lia. apply str_isin_iff. }
  assert (MH : get false mh i = true <-> horizontal (get ""%string (pols f pol) i)).
  { unfold mh. rewrite get_map with (d := ""%string) by lia. apply str_isin_iff. }
  rewrite G2, G4 by lia. rewrite G1, G3 by lia. rewrite !get_map with (d := n_nan) by auto.
  split; intros HH.
  - assert (get false mv i = false) as -> by (apply not_true_is_false; intros C; apply MV in C; exact (hv_excl _ HH C)).
    apply MH in HH. rewrite HH. auto.
  - apply MV in HH. rewrite HH. auto.
Qed.
End AB.

(** ** exact arithmetic *)
Local Open Scope R_scope.

Lemma Rpower_inv_cancel r b : 0 < r -> b <> 0 -> Rpower (Rpower r b) (1 / b) = r.
Proof.
  intros. rewrite Rpower_mult. replace (b * (1 / b)) with 1 by (field; auto). apply Rpower_1; auto.
Qed.

Lemma rate_XR (al e R_min x : R) :
  rate XRm (XFin al : XR) (XFin e : XR) (XFin R_min : XR) (XFin x : XR) =
  (let r := if Rle_bool 0 x then xpow (xdiv (XFin x) (XFin al)) (XFin e) else XFin 0 in
   if xltb r (XFin R_min) then XFin 0 else r).
Proof. reflexivity. Qed.

Lemma xdiv_fin x y : y <> 0 -> xdiv (XFin x) (XFin y) = XFin (x / y).
Proof. intros. simpl. rewrite Req_bool_false by auto. reflexivity. Qed.

Lemma rate_exact_pos al e R_min x : 0 < al -> 0 < x ->
  rate XRm (XFin al : XR) (XFin e : XR) (XFin R_min : XR) (XFin x : XR) =
  if Rlt_bool (Rpower (x / al) e) R_min then XFin 0 else XFin (Rpower (x / al) e).
Proof.
  intros Ha Hx. rewrite rate_XR. rewrite Rle_bool_true by lra. rewrite xdiv_fin by lra.
  rewrite xpow_pos by (apply Rdiv_lt_0_compat; auto). reflexivity.
Qed.

Lemma rate_exact_0 al e R_min : 0 < al -> 0 < e ->
  rate XRm (XFin al : XR) (XFin e : XR) (XFin R_min : XR) (XFin 0 : XR) = XFin 0.
Proof.
  intros Ha He. rewrite rate_XR. rewrite Rle_bool_true by lra. rewrite xdiv_fin by lra.
  replace (0 / al) with 0 by (unfold Rdiv; ring). rewrite xpow_0 by auto.
  cbv zeta. destruct (xltb _ _); auto.
Qed.

Lemma rate_exact_neg al e R_min x : x < 0 ->
  rate XRm (XFin al : XR) (XFin e : XR) (XFin R_min : XR) (XFin x : XR) = XFin 0.
Proof.
  intros Hx. rewrite rate_XR. rewrite Rle_bool_false by lra. cbv zeta. destruct (xltb _ _); auto.
Qed.

Lemma pos_XR r : 0 < r -> positive (XFin r : XR).
Proof. intros. unfold positive. change (xltb (XFin 0) (XFin r) = true). apply xltb_fin; auto. Qed.

Section Exact.
Variable cubic : list XR -> list XR -> XR -> XR.

Lemma calc_inverts (Rs : list R) a b l R_min ap : 0 < a -> 0 < b -> 0 < l ->
  (forall r, In r Rs -> 0 <= r) ->
  calc_R_from_A XRm cubic (ofR (map (attenuation a b l) Rs)) (XFin l : XR) None None
    (Some (CScalar (XFin a : XR))) (Some (CScalar (XFin b : XR))) ap (XFin R_min : XR)
  = Ok (ofR (map (fun r => if Rlt_dec r R_min then 0 else r) Rs)).
Proof.
  intros Ha Hb Hl HR. rewrite (calc_scalar XRsem) by (apply pos_XR; auto). f_equal.
  unfold ofR. rewrite !map_map. apply map_ext_in. intros r Hr.
  assert (Hal : 0 < a * l) by (apply Rmult_lt_0_compat; auto).
  change (n_mul (XFin a : XR) (XFin l : XR)) with (XFin (a * l) : XR).
  assert (E1 : n_div (one : XR) (XFin b : XR) = XFin (1 / b)).
  { simpl. rewrite Req_bool_false by lra. auto. }
  rewrite E1. unfold attenuation. specialize (HR r Hr).
  assert (0 < 1 / b) by (apply Rdiv_lt_0_compat; lra).
  destruct (Req_EM_T r 0).
  - subst. rewrite rate_exact_0 by auto. destruct (Rlt_dec 0 R_min); auto.
  - assert (0 < r) by lra. pose proof (Rpower_pos r b).
    rewrite rate_exact_pos; auto.
    + replace (a * Rpower r b * l / (a * l)) with (Rpower r b) by (field; lra).
      rewrite Rpower_inv_cancel by lra.
      destruct (Rlt_bool_spec r R_min), (Rlt_dec r R_min); auto; lra.
    + apply Rmult_lt_0_compat; auto. apply Rmult_lt_0_compat; auto.
Qed.

Definition gamma_k (k : R) : R := ln k + 57721566 / 100000000.

Lemma gamma_k_pos k : 1 <= k -> 0 < gamma_k k.
Proof.
  intros. unfold gamma_k. assert (0 <= ln k).
  { destruct (Req_dec k 1); [subst; rewrite ln_1; lra|].
    left. rewrite <- ln_1. apply ln_increasing; lra. } lra.
Qed.

Lemma min_max_scaled (A : list XR) a b l k pol ap : 0 < a -> 0 < b -> 0 < l -> 1 <= k ->
  (forall x : XR, In x A -> n_isinf x = false) ->
  exists Rc Rm,
    calc_R_from_A XRm cubic A (XFin l : XR) None None (Some (CScalar (XFin a : XR))) (Some (CScalar (XFin b : XR)))
      ap (XFin 0 : XR) = Ok Rc /\
    calc_R_from_A_min_max XRm cubic A (XFin l : XR) None (Some (CScalar (XFin a : XR))) (Some (CScalar (XFin b : XR)))
      pol (XFin 0 : XR) (XFin k : XR) = Ok Rm /\
    List.length Rm = List.length A /\
    forall i, (i < List.length A)%nat ->
      xat Rm i = xdiv (xat Rc i) (XFin (gamma_k k)) /\
      (xat Rm i = XNaN <-> xat A i = XNaN) /\
      (xltb (xat A i) (XFin 0) = true -> xat Rm i = XFin 0).
Proof.
  intros Ha Hb Hl Hk Hfin. pose proof (gamma_k_pos k Hk) as Hg.
  set (g := gamma_k k) in *.
  assert (Eb : n_div (one : XR) (XFin b : XR) = XFin (1 / b)).
  { simpl. rewrite Req_bool_false by lra. auto. }
  assert (Hib : 0 < 1 / b) by (apply Rdiv_lt_0_compat; lra).
  assert (EL : forall z e, n_lit (O := XR) z e = XFin (IZR z / IZR (10 ^ Z.of_nat e))).
  { intros z e. unfold n_lit. simpl. rewrite Req_bool_false; auto.
    apply not_0_IZR. pose proof (Z.pow_pos_nonneg 10 (Z.of_nat e)). lia. }
  assert (Eg : n_add (m_log XRm (XFin k : XR)) (n_lit 57721566 8 : XR) = XFin g).
  { rewrite EL. simpl m_log. rewrite Rlt_bool_true by lra. reflexivity. }
  eexists _, _. split; [apply (calc_scalar XRsem); apply pos_XR; auto|]. split.
  { unfold calc_R_from_A_min_max. cbn [bind]. rewrite Eg. cbn [coef_list].
    rewrite bcast2_single. cbn [bind map]. rewrite bcast2_single. cbn [bind map].
    apply power_law_elementwise with (e := (XFin (1 / b) : XR)); [reflexivity|].
    rewrite (coef_inv_scalar XRsem) by (apply pos_XR; auto). rewrite Eb. reflexivity. }
  split; [apply map_length|]. intros i Hi. unfold xat.
  rewrite !get_map with (d := (n_nan : XR)) by auto.
  set (x := get (n_nan : XR) A i).
  assert (Fx : xisinf x = false) by (apply (Hfin x); apply get_In; auto).
  rewrite Eb.
  assert (E1 : m_pow XRm (XFin g : XR) (XFin b : XR) = XFin (Rpower g b)) by (apply xpow_pos; auto).
  rewrite E1.
  change (n_mul (n_mul (XFin a : XR) (XFin (Rpower g b) : XR)) (XFin l : XR)) with (XFin (a * Rpower g b * l) : XR).
  change (n_mul (XFin a : XR) (XFin l : XR)) with (XFin (a * l) : XR).
  pose proof (Rpower_pos g b) as Pg.
  assert (P1 : 0 < a * l) by (apply Rmult_lt_0_compat; auto).
  assert (P2 : 0 < a * Rpower g b * l) by (repeat apply Rmult_lt_0_compat; auto).
  destruct x as [| |r|] eqn:Ex; try discriminate.
  - simpl. unfold rate. simpl. split; auto. split; [tauto|discriminate].
  - change (@rate XR XRm) with (@rate XR XRm).
    destruct (Rtotal_order r 0) as [Lt|[E0|Gt]].
    + rewrite !(rate_exact_neg) by auto. split; [|split].
      * simpl. rewrite Req_bool_false by lra. f_equal. unfold Rdiv; ring.
      * split; discriminate.
      * auto.
    + subst r. rewrite !rate_exact_0 by auto. split; [|split].
      * simpl. rewrite Req_bool_false by lra. f_equal. unfold Rdiv; ring.
      * split; discriminate.
      * auto.
    + rewrite !rate_exact_pos by auto.
      assert (ER : Rpower (r / (a * Rpower g b * l)) (1 / b) = Rpower (r / (a * l)) (1 / b) / g).
      { replace (r / (a * Rpower g b * l)) with (r / (a * l) * / Rpower g b) by (field; repeat split; lra).
        rewrite <- Rpower_Ropp. rewrite <- Rpower_mult_distr; [|apply Rdiv_lt_0_compat; auto|apply Rpower_pos].
        rewrite Rpower_mult. replace (- b * (1 / b)) with (- (1)) by (field; lra).
        rewrite Rpower_Ropp, Rpower_1 by auto. reflexivity. }
      rewrite ER. pose proof (Rpower_pos (r / (a * l)) (1 / b)) as P3.
      assert (0 < Rpower (r / (a * l)) (1 / b) / g) by (apply Rdiv_lt_0_compat; auto).
      rewrite !Rlt_bool_false by lra. split; [|split].
      * simpl. rewrite Req_bool_false by lra. reflexivity.
      * split; discriminate.
      * intros C. apply xltb_fin in C. lra.
Qed.
End Exact.

Section MinMaxArgs.
Context {O : numops} (L : libm O).
Variable cubic : list O -> list O -> O -> O.
Lemma min_max_calibrated (A : list O) l a b pol ap R_min k :
  let g := n_add (m_log L k) (n_lit 57721566 8) in
  calc_R_from_A_min_max L cubic A l None (Some (CScalar a)) (Some (CScalar b)) pol R_min k =
  calc_R_from_A L cubic A l None None (Some (CArr [n_mul a (m_pow L g b)])) (Some (CScalar b)) ap R_min.
Proof. reflexivity. Qed.
Lemma min_max_arguments (A : list O) l a b pol R_min k :
  (a = None \/ b = None -> calc_R_from_A_min_max L cubic A l None a b pol R_min k = Err TypeError) /\
  forall f, calc_R_from_A_min_max L cubic A l (Some f) a b pol R_min k = calc_R_from_A_min_max L cubic A l (Some f) None None pol R_min k.
Proof. split; [|reflexivity]. intros [->| ->]; [reflexivity|]. destruct a; reflexivity. Qed.
End MinMaxArgs.
