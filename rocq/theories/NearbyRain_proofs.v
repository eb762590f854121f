(** Proofs about the nearby-link rain retrieval. *)
From Coq Require Import List ZArith Bool String Reals Lra Lia Arith.
From Flocq Require Import Core.Raux.
From Verif Require Import Base Num NumList NpOps Libm RealSpec RealStat Median NumF64 Libm64 KR_model KR_spec KR_proofs Pastorek_spec
  NearbyRain_model NearbyRain_spec.
Import ListNotations.
Local Open Scope nat_scope.
Local Notation length := List.length.

Section Any.
Context {O : numops} (S : numsem O).

(** ** reference level *)
Lemma one_neq_zero : n_eqb (zero : O) one = false.
Proof.
  apply not_true_is_false. intros E. rewrite (val_eqb _ S) in E. unfold zero, one in E.
  rewrite !(val_ofZ _ S) in E by (compute; discriminate). apply xeqb_true in E as [E _]. injection E as E. lra.
Qed.
Lemma eqb_refl_num (x : O) : n_isnan x = false -> n_eqb x x = true.
Proof. intros H. rewrite (val_eqb _ S). apply xeqb_true. split; auto. rewrite <- (val_isnan _ S). auto. Qed.
Lemma eqb_nan_l (x y : O) : n_isnan x = true -> n_eqb x y = false.
Proof.
  intros H. apply not_true_is_false. intros E. rewrite (val_eqb _ S) in E. apply xeqb_true in E as [_ E].
  rewrite <- (val_isnan _ S) in E. congruence.
Qed.

Lemma pmean_get (pmin pmax wet : list O) k : length pmin = length wet -> length pmax = length wet -> k < length wet ->
  get n_nan (map2 (fun (d m : O) => if n_eqb d one then m else n_nan)
    (map (fun w : O => if n_isnan w then (n_nan : O) else if n_eqb w zero then one else zero) wet)
    (map2 (fun a b => n_div (n_add a b) (n_ofZ 2)) pmin pmax)) k
  = if n_eqb (get n_nan wet k) (n_ofZ 0) then level pmin pmax k else n_nan.
Proof.
  intros L1 L2 Hk. rewrite get_map2 with (da := n_nan) (db := n_nan) by (rewrite ?map_length, ?map2_length; lia).
  rewrite get_map with (d := n_nan) by auto. rewrite get_map2 with (da := n_nan) (db := n_nan) by lia. fold (level pmin pmax k).
  set (w := get n_nan wet k). fold (zero : O). destruct (n_isnan w) eqn:Nw.
  - rewrite (eqb_nan_l w zero Nw). rewrite eqb_nan_l by apply (isnan_nan S). reflexivity.
  - destruct (n_eqb w zero) eqn:E.
    + rewrite eqb_refl_num; auto. unfold one. apply (isnan_ofZ S). compute; discriminate.
    + rewrite one_neq_zero. reflexivity.
Qed.

Lemma filter_map_seq (l : list O) f s k : s + k <= length l -> (forall i, i < length l -> get n_nan l i = f i) ->
  slice s (s + k) l = map f (seq s k).
Proof.
  intros Hl H. apply get_ext with (d := n_nan).
  - rewrite slice_length, map_length, seq_length by lia. lia.
  - rewrite slice_length by lia. intros i Hi. rewrite get_slice by lia. rewrite H by lia.
    rewrite get_map with (d := 0) by (rewrite seq_length; lia). unfold get. rewrite seq_nth by lia. reflexivity.
Qed.

Lemma not_nan_map (wet pmin pmax : list O) ks :
  not_nan (map (fun k => if n_eqb (get n_nan wet k) (n_ofZ 0) then level pmin pmax k else n_nan) ks)
  = map (level pmin pmax) (filter (fun k => n_eqb (get n_nan wet k) (n_ofZ 0) && negb (n_isnan (level pmin pmax k))) ks).
Proof.
  induction ks as [|k ks IH]; simpl; auto. fold (not_nan (O := O)). destruct (n_eqb (get n_nan wet k) (n_ofZ 0)); simpl.
  - destruct (n_isnan (level pmin pmax k)); simpl; rewrite <- IH; reflexivity.
  - rewrite (isnan_nan S). simpl. exact IH.
Qed.

Lemma reference_level (pmin pmax wet : list O) n mp :
  length pmin = length wet -> length pmax = length wet -> 1 <= mp <= n -> n <= length wet ->
  exists pref, nearby_determine_reference_level pmin pmax wet n mp = Ok pref /\ length pref = length wet /\
  forall t, t < length wet -> let v := dry_levels pmin pmax wet n t in
    (length v < mp -> get n_nan pref t = n_nan) /\
    (mp <= length v -> is_median v (get n_nan pref t)).
Proof.
  intros L1 L2 H1 H2. unfold nearby_determine_reference_level.
  set (pm := map2 _ _ (map2 _ pmin pmax)).
  assert (Lp : length pm = length wet) by (unfold pm; rewrite map2_length; rewrite map_length, ?map2_length; lia).
  destruct (rolling_get median n mp pm) as (r & E & Lr & G). { apply rolling_ok_true. lia. }
  exists r. split; [exact E|]. split; [lia|]. intros t Ht. set (v := dry_levels pmin pmax wet n t). rewrite G by lia. cbv zeta.
  assert (EV : not_nan (trailing n t pm) = v).
  { unfold trailing, v, dry_levels. rewrite <- not_nan_map. f_equal.
    replace (t + 1) with (t + 1 - n + (t + 1 - (t + 1 - n))) at 2 by lia.
    apply filter_map_seq; [lia|]. intros i Hi. unfold pm. apply pmean_get; lia. }
  rewrite EV. split; intros Hv.
  - destruct (Nat.ltb_spec (length v) mp); [auto|lia].
  - destruct (Nat.ltb_spec (length v) mp); [lia|]. apply (median_is_median S).
    intros y Hy. rewrite <- EV in Hy. apply not_nan_In in Hy. tauto.
Qed.

(** ** corrected signals *)
Lemma where_get (c : list bool) (x y : list O) i : length c = length x -> length x = length y -> i < length x ->
  get n_nan (map2 (fun (c : bool) p => if c then fst p else snd p) c (combine x y)) i
  = if get false c i then get n_nan x i else get n_nan y i.
Proof.
  intros L1 L2 Hi. rewrite get_map2 with (da := false) (db := (n_nan, n_nan)) by (rewrite ?combine_length; lia).
  unfold get at 2 3. rewrite combine_nth by auto. reflexivity.
Qed.

Lemma correct_signals (pmin pmax wet pref : list O) T :
  length pmin = T -> length pmax = T -> length wet = T -> length pref = T ->
  exists cmin cmax, nearby_correct_received_signals pmin pmax wet pref = (cmin, cmax) /\
  length cmin = T /\ length cmax = T /\
  forall t, t < T ->
    let rainy := n_eqb (get n_nan wet t) (n_ofZ 1) && n_ltb (get n_nan pmin t) (get n_nan pref t) in
    get n_nan cmin t = (if rainy then get n_nan pmin t else get n_nan pref t) /\
    get n_nan cmax t = (if rainy && n_ltb (get n_nan pmax t) (get n_nan pref t) then get n_nan pmax t else get n_nan pref t) /\
    (n_isnan (get n_nan pref t) = false ->
       n_leb (get n_nan cmin t) (get n_nan pref t) = true /\ n_leb (get n_nan cmax t) (get n_nan pref t) = true).
Proof.
  intros L1 L2 L3 L4. unfold nearby_correct_received_signals. cbv zeta.
  set (c1 := map2 andb (map2 n_ltb pmin pref) (map (fun w => n_eqb w one) wet)).
  assert (Lc1 : length c1 = T) by (unfold c1; rewrite map2_length; rewrite map2_length, ?map_length; lia).
  set (cmin := map2 _ c1 (combine pmin pref)).
  assert (Lmin : length cmin = T) by (unfold cmin; rewrite map2_length; rewrite ?combine_length; lia).
  set (c2 := map2 andb (map2 n_ltb cmin pref) (map2 n_ltb pmax pref)).
  assert (Lc2 : length c2 = T) by (unfold c2; rewrite map2_length; rewrite !map2_length; lia).
  eexists _, _. split; [reflexivity|]. split; [exact Lmin|]. split; [rewrite map2_length; rewrite ?combine_length; lia|].
  intros t Ht. set (rainy := n_eqb (get n_nan wet t) (n_ofZ 1) && n_ltb (get n_nan pmin t) (get n_nan pref t)).
  assert (G1 : get false c1 t = rainy).
  { unfold c1, rainy. rewrite get_map2 with (da := false) (db := false) by (rewrite ?map2_length, ?map_length; lia).
    rewrite get_map2 with (da := n_nan) (db := n_nan) by lia. rewrite get_map with (d := n_nan) by lia. apply andb_comm. }
  assert (Gm : get n_nan cmin t = if rainy then get n_nan pmin t else get n_nan pref t).
  { unfold cmin. rewrite where_get by lia. rewrite G1. reflexivity. }
  assert (G2 : get false c2 t = rainy && n_ltb (get n_nan pmax t) (get n_nan pref t)).
  { unfold c2. rewrite get_map2 with (da := false) (db := false) by (rewrite ?map2_length; lia).
    rewrite !get_map2 with (da := n_nan) (db := n_nan) by lia. rewrite Gm. destruct rainy eqn:E.
    - unfold rainy in E. apply andb_prop in E as [_ E]. rewrite E. reflexivity.
    - rewrite (ltb_irrefl S). reflexivity. }
  assert (GM : get n_nan (map2 (fun (c : bool) p => if c then fst p else snd p) c2 (combine pmax pref)) t =
     if rainy && n_ltb (get n_nan pmax t) (get n_nan pref t) then get n_nan pmax t else get n_nan pref t).
  { rewrite where_get by lia. rewrite G2. reflexivity. }
  split; [exact Gm|]. split; [exact GM|]. intros Hn. rewrite Gm, GM. split.
  - destruct rainy eqn:E; [|apply (leb_refl S); auto]. unfold rainy in E. apply andb_prop in E as [_ E]. apply (ltb_leb S); auto.
  - destruct (rainy && _) eqn:E; [|apply (leb_refl S); auto]. apply andb_prop in E as [_ E]. apply (ltb_leb S); auto.
Qed.

(** ** retrieval *)
Context (L : libm O).
Variable cubic : list O -> list O -> O -> O.
Notation retrieve := (nearby_rainfall_retrival L cubic).

Lemma retrieval_combos pref pmin pmax F len f pol a b ap waa alpha thr :
  ~ (f <> None /\ pol <> None /\ a = None /\ b = None) ->
  ~ (f = None /\ pol = None /\ a <> None /\ b <> None) ->
  retrieve pref pmin pmax F len f pol a b ap waa alpha thr = Err ValueError.
Proof.
  intros H1 H2. unfold nearby_rainfall_retrival.
  destruct f, pol, a, b; cbn [bind]; auto; exfalso; [apply H1|apply H2]; repeat split; congruence.
Qed.

Definition att (pref p waa : O) : O := let x := n_sub (n_sub pref p) waa in if n_ltb x zero then zero else x.
Definition mixed (alpha al e amin amax : O) : O :=
  n_add (n_mul alpha (m_pow L (n_div amax al) e)) (n_mul (n_sub one alpha) (m_pow L (n_div amin al) e)).

Lemma retrieval_core (pref cmin cmax F : list O) len (a b : coef O) a0 e waa alpha thr ap T :
  length pref = T -> length cmin = T -> length cmax = T -> length F = T ->
  coef_list a = [a0] -> coef_inv b = Ok [e] ->
  exists R, retrieve pref cmin cmax F len None None (Some a) (Some b) ap waa alpha thr = Ok R /\ length R = T /\
  forall t, t < T ->
    get n_nan R t =
    if match thr with None => false | Some x => n_leb (get n_nan F t) x end then n_nan
    else mixed alpha (n_mul a0 len) e (att (get n_nan pref t) (get n_nan cmax t) waa) (att (get n_nan pref t) (get n_nan cmin t) waa).
Proof.
  intros L1 L2 L3 L4 Ea Eb. unfold nearby_rainfall_retrival. cbn [bind].
  assert (B : forall l1 l2 : list O, length l1 = length l2 -> forall f : O -> O -> O, bcast2 f l1 l2 = Ok (map2 f l1 l2)).
  { intros l1 l2 HL f. unfold bcast2. rewrite HL, Nat.eqb_refl. reflexivity. }
  rewrite (B pref cmax), (B pref cmin) by lia. cbn [bind]. cbv zeta. rewrite Ea, Eb.
  cbn [map]. rewrite !bcast2_single. cbn [bind]. rewrite !bcast2_single. cbn [bind].
  rewrite B by (rewrite !map_length, !map2_length; lia). cbn [bind].
  set (R := map2 n_add _ _).
  assert (LR : length R = T) by (unfold R; rewrite map2_length; rewrite !map_length, !map2_length; lia).
  assert (GR : forall t, t < T -> get n_nan R t = mixed alpha (n_mul a0 len) e (att (get n_nan pref t) (get n_nan cmax t) waa) (att (get n_nan pref t) (get n_nan cmin t) waa)).
  { intros t Ht. unfold R. rewrite get_map2 with (da := n_nan) (db := n_nan) by (rewrite !map_length, !map2_length; lia).
    rewrite !map_map. rewrite !get_map with (d := n_nan) by (rewrite !map2_length; lia).
    rewrite !get_map2 with (da := n_nan) (db := n_nan) by lia. reflexivity. }
  destruct thr as [x|].
  - rewrite LR, L4, Nat.eqb_refl. eexists. split; [reflexivity|]. split; [rewrite mask_fill_length; rewrite ?map_length; lia|].
    intros t Ht. rewrite mask_fill_get by (rewrite ?map_length; lia). rewrite get_map with (d := n_nan) by lia. rewrite GR by auto. reflexivity.
  - exists R. split; [reflexivity|]. split; [exact LR|exact GR].
Qed.

(** the score array has to match, unless it is not used *)
Lemma retrieval_score_length (pref cmin cmax F : list O) len (a b : coef O) a0 e waa alpha x ap T :
  length pref = T -> length cmin = T -> length cmax = T -> length F <> T ->
  coef_list a = [a0] -> coef_inv b = Ok [e] ->
  retrieve pref cmin cmax F len None None (Some a) (Some b) ap waa alpha (Some x) = Err IndexError.
Proof.
  intros L1 L2 L3 L4 Ea Eb. unfold nearby_rainfall_retrival. cbn [bind].
  assert (B : forall l1 l2 : list O, length l1 = length l2 -> forall f : O -> O -> O, bcast2 f l1 l2 = Ok (map2 f l1 l2)).
  { intros l1 l2 HL f. unfold bcast2. rewrite HL, Nat.eqb_refl. reflexivity. }
  rewrite (B pref cmax), (B pref cmin) by lia. cbn [bind]. cbv zeta. rewrite Ea, Eb.
  cbn [map]. rewrite !bcast2_single. cbn [bind]. rewrite !bcast2_single. cbn [bind].
  rewrite B by (rewrite !map_length, !map2_length; lia). cbn [bind].
  rewrite (proj2 (Nat.eqb_neq _ _)); [reflexivity|]. rewrite map2_length; rewrite !map_length, !map2_length; lia.
Qed.
Lemma coef_inv_nonzero (b : O) : n_eqb b (n_ofZ 0) = false -> coef_inv (CScalar b) = Ok [n_div one b].
Proof. intros H. unfold coef_inv. change (n_eqb b zero) with (n_eqb b (n_ofZ 0)). rewrite H. reflexivity. Qed.
Lemma retrieval_score_unused pref cmin cmax F F' len f pol a b ap waa alpha :
  retrieve pref cmin cmax F len f pol a b ap waa alpha None = retrieve pref cmin cmax F' len f pol a b ap waa alpha None.
Proof. reflexivity. Qed.

(** the frequency path with one frequency is the coefficient path *)
Lemma retrieval_freq pref cmin cmax F len f pol ap waa alpha thr a0 b0 :
  a_b cubic [f] (PolArr [pol]) ap = Ok ([a0], [b0]) ->
  retrieve pref cmin cmax F len (Some [f]) (Some (PolStr pol)) None None ap waa alpha thr
  = retrieve pref cmin cmax F len None None (Some (CArr [a0])) (Some (CArr [b0])) ap waa alpha thr.
Proof. intros E. unfold nearby_rainfall_retrival. rewrite E. reflexivity. Qed.

(** zero attenuation gives zero rain *)
Definition isz (x : O) : Prop := val S x = XFin 0.
Lemma isz_eqb x : isz x -> n_eqb x (n_ofZ 0) = true.
Proof. intros H. rewrite (val_eqb _ S). apply xeqb_true. rewrite H, (val_0 S). auto. Qed.
Lemma eqb_isz x : n_eqb x (n_ofZ 0) = true -> isz x.
Proof. intros H. rewrite (val_eqb _ S) in H. apply xeqb_true in H as [H _]. rewrite (val_0 S) in H. exact H. Qed.

Lemma att_zero p waa : finite p -> n_leb (n_ofZ 0) waa = true -> isz (att p p waa).
Proof.
  intros [N I] W. unfold att. cbv zeta. set (x := n_sub (n_sub p p) waa).
  assert (V0 : val S (n_sub p p) = XFin 0).
  { rewrite (val_sub _ S). rewrite (val_isnan _ S) in N. rewrite (val_isinf _ S) in I.
    destruct (val S p) as [| |r|]; try discriminate. simpl. replace (r + - r)%R with 0%R by ring. apply (rnd_0 S). }
  destruct (n_ltb x zero) eqn:E; [unfold isz, zero; apply (val_0 S)|].
  rewrite (val_ltb _ S) in E. unfold zero in E. rewrite (val_0 S) in E. unfold isz.
  assert (VX : val S x = rnd S (xopp (val S waa))).
  { unfold x. rewrite (val_sub _ S), V0. rewrite (val_leb _ S), (val_0 S) in W.
    destruct (val S waa); try discriminate; simpl; auto. rewrite Rplus_0_l. reflexivity. }
  rewrite VX in *. rewrite (val_leb _ S), (val_0 S) in W.
  assert (Lr : xleb (rnd S (xopp (val S waa))) (XFin 0) = true).
  { rewrite <- (rnd_0 S). apply (rnd_mono _ S). destruct (val S waa); simpl in *; try discriminate; auto. xcases; auto; lra. }
  destruct (rnd S (xopp (val S waa))) as [| |r|]; simpl in *; try discriminate. xcases. f_equal. lra.
Qed.

Lemma mul_zero (x y : O) : finite x -> isz y -> isz (n_mul x y).
Proof.
  intros [N I] H. unfold isz in *. rewrite (val_mul _ S), H. rewrite (val_isnan _ S) in N. rewrite (val_isinf _ S) in I.
  destruct (val S x) as [| |r|]; try discriminate. simpl. replace (r * 0)%R with 0%R by ring. apply (rnd_0 S).
Qed.

Lemma finite_one_minus (alpha : O) : n_leb (n_ofZ 0) alpha = true -> n_leb alpha (n_ofZ 1) = true -> finite (n_sub one alpha).
Proof.
  intros H0 H1. rewrite (val_leb _ S), (val_0 S) in H0. rewrite (val_leb _ S), (val_ofZ _ S) in H1 by (compute; discriminate).
  unfold finite. rewrite (val_isnan _ S), (val_isinf _ S), (val_sub _ S). unfold one. rewrite (val_ofZ _ S) by (compute; discriminate).
  destruct (val S alpha) as [| |r|]; simpl in H0, H1; try discriminate. simpl.
  assert (xleb (XFin 0) (rnd S (XFin (1 + - r))) = true).
  { rewrite <- (rnd_0 S). apply (rnd_mono _ S). simpl. xcases; auto; lra. }
  assert (xleb (rnd S (XFin (1 + - r))) (XFin 1) = true).
  { replace (XFin 1) with (rnd S (XFin 1)); [apply (rnd_mono _ S); simpl; xcases; auto; lra|].
    pose proof (rnd_val _ S (n_ofZ 1)) as E. rewrite (val_ofZ _ S) in E by (compute; discriminate). exact E. }
  destruct (rnd S (XFin (1 + - r))); simpl in *; try discriminate; auto.
Qed.

Lemma finite_unit (alpha : O) : n_leb (n_ofZ 0) alpha = true -> n_leb alpha (n_ofZ 1) = true -> finite alpha.
Proof.
  intros H0 H1. rewrite (val_leb _ S), (val_0 S) in H0. rewrite (val_leb _ S), (val_ofZ _ S) in H1 by (compute; discriminate).
  unfold finite. rewrite (val_isnan _ S), (val_isinf _ S). destruct (val S alpha); simpl in *; try discriminate; auto.
Qed.

Lemma mixed_zero (alpha al e amin amax : O) : pow_zero L -> isz amin -> isz amax ->
  n_ltb (n_ofZ 0) al = true -> n_ltb (n_ofZ 0) e = true ->
  n_leb (n_ofZ 0) alpha = true -> n_leb alpha (n_ofZ 1) = true ->
  n_eqb (mixed alpha al e amin amax) (n_ofZ 0) = true.
Proof.
  intros PZ Zmin Zmax Pal Pe A0 A1.
  assert (DZ : forall x, isz x -> isz (n_div x al)).
  { intros x Hx. unfold isz in *. rewrite (val_ltb _ S), (val_0 S) in Pal. rewrite (val_div _ S).
    - rewrite Hx. destruct (val S al) as [| |r|]; simpl in Pal; try discriminate.
      + unfold xdiv. destruct (Req_bool_spec r 0); [xcases; lra|]. replace (0 / r)%R with 0%R by (unfold Rdiv; ring). apply (rnd_0 S).
      + simpl. apply (rnd_0 S).
    - intros E. rewrite E in Pal. simpl in Pal. xcases; lra. }
  assert (P : forall x, isz x -> isz (m_pow L (n_div x al) e)).
  { intros x Hx. apply eqb_isz. apply PZ; auto. apply isz_eqb. apply DZ; auto. }
  apply isz_eqb. unfold mixed. unfold isz. rewrite (val_add _ S).
  rewrite (mul_zero alpha _ (finite_unit alpha A0 A1) (P amax Zmax)).
  rewrite (mul_zero (n_sub one alpha) _ (finite_one_minus alpha A0 A1) (P amin Zmin)).
  simpl. rewrite Rplus_0_r. apply (rnd_0 S).
Qed.

Lemma no_rain_when_not_wet (pmin pmax wet F : list O) n mp len a b waa alpha thr ap T :
  pow_zero L ->
  length pmin = T -> length pmax = T -> length wet = T -> length F = T -> 1 <= mp <= n -> n <= T ->
  n_ltb (n_ofZ 0) (n_mul a len) = true -> positive b -> n_ltb (n_ofZ 0) (n_div (n_ofZ 1) b) = true ->
  n_leb (n_ofZ 0) waa = true -> n_leb (n_ofZ 0) alpha = true -> n_leb alpha (n_ofZ 1) = true ->
  exists pref cmin cmax R,
    nearby_determine_reference_level pmin pmax wet n mp = Ok pref /\
    nearby_correct_received_signals pmin pmax wet pref = (cmin, cmax) /\
    retrieve pref cmin cmax F len None None (Some (CScalar a)) (Some (CScalar b)) ap waa alpha thr = Ok R /\
    length R = T /\
    forall t, t < T ->
      finite (get n_nan pref t) -> unfiltered F thr t ->
      n_eqb (get n_nan wet t) (n_ofZ 1) = false \/ n_isnan (get n_nan pmin t) = true ->
      n_eqb (get n_nan R t) (n_ofZ 0) = true.
Proof.
  intros PZ L1 L2 L3 L4 Hmp Hn Pal Pb Pe W A0 A1.
  destruct (reference_level pmin pmax wet n mp) as (pref & E1 & Lp & _); try lia.
  destruct (correct_signals pmin pmax wet pref T) as (cmin & cmax & E2 & Lmin & Lmax & G); try lia.
  destruct (retrieval_core pref cmin cmax F len (CScalar a) (CScalar b) a (n_div one b) waa alpha thr ap T) as (R & E3 & LR & GR); auto; try lia.
  { apply (coef_inv_scalar S); auto. }
  exists pref, cmin, cmax, R. split; [exact E1|]. split; [exact E2|]. split; [exact E3|]. split; [exact LR|].
  intros t Ht Fp U D. rewrite GR by auto.
  replace (match thr with None => false | Some x => n_leb (get n_nan F t) x end) with false by (destruct thr; simpl in U; auto).
  destruct (G t Ht) as (G1 & G2 & _). cbv zeta in *.
  assert (RF : n_eqb (get n_nan wet t) (n_ofZ 1) && n_ltb (get n_nan pmin t) (get n_nan pref t) = false).
  { destruct D as [D|D]; [rewrite D; auto|]. rewrite (ltb_nan_l S _ _ D). apply andb_false_r. }
  rewrite RF in G1, G2. rewrite G1, G2. apply mixed_zero; auto; apply att_zero; auto.
Qed.
End Any.

(** ** exact arithmetic *)
Lemma rain_of_pow a b l x : (0 < a * l)%R -> (0 < b)%R -> (0 <= x)%R ->
  m_pow XRm (n_div (XFin x : XR) (XFin (a * l) : XR)) (XFin (1 / b) : XR) = (XFin (rain_of a b l x) : XR).
Proof.
  intros Ha Hb Hx. change (n_div (XFin x : XR) (XFin (a * l) : XR)) with (xdiv (XFin x) (XFin (a * l)) : XR).
  rewrite xdiv_fin by lra. unfold rain_of. destruct (Req_EM_T x 0) as [->|N].
  - replace (0 / (a * l))%R with 0%R by (unfold Rdiv; ring). apply xpow_0. apply Rdiv_lt_0_compat; lra.
  - apply xpow_pos. apply Rdiv_lt_0_compat; lra.
Qed.

Lemma retrieval_exact cubic (pref cmin cmax : list R) (F : list XR) (len a b waa alpha : R) thr ap T :
  length pref = T -> length cmin = T -> length cmax = T -> length F = T ->
  (0 < len)%R -> (0 < a)%R -> (0 < b)%R -> (0 <= alpha <= 1)%R ->
  exists rain, nearby_rainfall_retrival XRm cubic (ofR pref) (ofR cmin) (ofR cmax) F (XFin len : XR) None None
     (Some (CScalar (XFin a : XR))) (Some (CScalar (XFin b : XR))) ap (XFin waa : XR) (XFin alpha : XR) thr = Ok rain /\ length rain = T /\
  forall t, t < T ->
    (~ unfiltered F thr t -> get (n_nan : XR) rain t = n_nan) /\
    (unfiltered F thr t -> exists r : R,
      get (n_nan : XR) rain t = (XFin r : XR) /\
      let r_min := rain_of a b len (rain_attenuation (rget pref t) (rget cmax t) waa) in
      let r_max := rain_of a b len (rain_attenuation (rget pref t) (rget cmin t) waa) in
      r = (alpha * r_max + (1 - alpha) * r_min)%R /\ (0 <= r)%R /\ (Rmin r_min r_max <= r <= Rmax r_min r_max)%R /\
      ((rget cmin t <= rget cmax t)%R -> (r_min <= r <= r_max)%R)).
Proof.
  intros L1 L2 L3 L4 Hl Ha Hb Hal.
  destruct (retrieval_core XRm cubic (ofR pref) (ofR cmin) (ofR cmax) F (XFin len : XR) (CScalar (XFin a : XR)) (CScalar (XFin b : XR))
    (XFin a : XR) (n_div one (XFin b : XR)) (XFin waa : XR) (XFin alpha : XR) thr ap T) as (rain & E & LR & G);
    rewrite ?ofR_length; auto.
  { apply (coef_inv_scalar XRsem). apply pos_XR; auto. }
  exists rain. split; [exact E|]. split; [exact LR|]. intros t Ht. rewrite G by auto.
  assert (Pal : (0 < a * len)%R) by (apply Rmult_lt_0_compat; auto).
  assert (AT : forall p q, att (XFin p : XR) (XFin q : XR) (XFin waa : XR) = (XFin (rain_attenuation p q waa) : XR)).
  { intros p q. unfold att. change (n_sub (n_sub (XFin p : XR) (XFin q : XR)) (XFin waa : XR)) with (XFin (p - q - waa) : XR). cbv zeta.
    change (n_ltb (XFin (p - q - waa) : XR) zero) with (Rlt_bool (p - q - waa) 0). unfold rain_attenuation.
    destruct (Rlt_bool_spec (p - q - waa) 0); [rewrite Rmax_left by lra|rewrite Rmax_right by lra]; reflexivity. }
  assert (MX : mixed XRm (XFin alpha : XR) (n_mul (XFin a : XR) (XFin len : XR)) (n_div one (XFin b : XR))
    (att (get n_nan (ofR pref) t) (get n_nan (ofR cmax) t) (XFin waa : XR)) (att (get n_nan (ofR pref) t) (get n_nan (ofR cmin) t) (XFin waa : XR))
    = (XFin (alpha * rain_of a b len (rain_attenuation (rget pref t) (rget cmin t) waa) +
            (1 - alpha) * rain_of a b len (rain_attenuation (rget pref t) (rget cmax t) waa)) : XR)).
  { rewrite !ofR_get by lia. rewrite !AT. unfold mixed.
    change (n_mul (XFin a : XR) (XFin len : XR)) with (XFin (a * len) : XR).
    assert (EB : n_div (one : XR) (XFin b : XR) = (XFin (1 / b) : XR)) by (apply (xdiv_fin 1 b); lra). rewrite EB.
    rewrite !rain_of_pow; auto; unfold rain_attenuation; try apply Rmax_l. }
  assert (R0 : forall x, (0 <= rain_of a b len x)%R).
  { intros x. unfold rain_of. destruct (Req_EM_T x 0); [lra|left; apply Rpower_pos]. }
  assert (RM : forall x y, (0 <= x)%R -> (x <= y)%R -> (rain_of a b len x <= rain_of a b len y)%R).
  { intros x y Hx Hy. unfold rain_of at 1. destruct (Req_EM_T x 0); [apply R0|]. unfold rain_of. destruct (Req_EM_T y 0); [lra|].
    destruct Hy as [Hy|<-]; [|lra]. left. apply Rlt_Rpower_l; [apply Rdiv_lt_0_compat; lra|].
    split; [apply Rdiv_lt_0_compat; lra|]. apply Rmult_lt_compat_r; [apply Rinv_0_lt_compat; auto|auto]. }
  split.
  - intros U. unfold unfiltered in U. destruct thr as [x|]; [|tauto]. destruct (n_leb (get n_nan F t) x); [reflexivity|tauto].
  - intros U. replace (match thr with None => false | Some x => n_leb (get n_nan F t) x end) with false by (destruct thr; simpl in U; auto).
    eexists. split; [exact MX|]. cbv zeta.
    set (r1 := rain_of a b len (rain_attenuation (rget pref t) (rget cmax t) waa)).
    set (r2 := rain_of a b len (rain_attenuation (rget pref t) (rget cmin t) waa)).
    assert (0 <= r1)%R by apply R0. assert (0 <= r2)%R by apply R0. split; [reflexivity|]. split; [nra|]. split.
    + unfold Rmin, Rmax. destruct (Rle_dec r1 r2); nra.
    + intros Hc. assert (r1 <= r2)%R; [|nra]. apply RM; unfold rain_attenuation; [apply Rmax_l|].
      apply Rle_max_compat_l. lra.
Qed.

Lemma reference_range (pmin pmax : list R) (wet : list XR) n mp lo hi :
  length pmin = length wet -> length pmax = length wet -> 1 <= mp <= n -> n <= length wet ->
  exists pref, nearby_determine_reference_level (ofR pmin) (ofR pmax) wet n mp = Ok pref /\
  forall t, t < length wet -> mp <= length (dry_levels (ofR pmin) (ofR pmax) wet n t) ->
    (forall k, t < k + n -> k <= t -> n_eqb (get (n_nan : XR) wet k) (n_ofZ 0) = true ->
       (lo <= (rget pmin k + rget pmax k) / 2 <= hi)%R) ->
    exists r, get (n_nan : XR) pref t = (XFin r : XR) /\ (lo <= r <= hi)%R.
Proof.
  intros L1 L2 H1 H2.
  destruct (reference_level XRsem (ofR pmin) (ofR pmax) wet n mp) as (pref & E & Lp & G); rewrite ?ofR_length; auto.
  exists pref. split; [exact E|]. intros t Ht Hm HR. destruct (G t Ht) as [_ M]. specialize (M Hm). cbv zeta in M.
  assert (EV : dry_levels (ofR pmin) (ofR pmax) wet n t = ofR (map (fun k => (rget pmin k + rget pmax k) / 2)%R
     (filter (fun k => n_eqb (get n_nan wet k) (n_ofZ 0) && negb (n_isnan (level (ofR pmin) (ofR pmax) k))) (seq (t + 1 - n) (t + 1 - (t + 1 - n)))))).
  { unfold dry_levels, ofR. rewrite map_map. apply map_ext_in. intros k Hk. apply filter_In in Hk as [Hk _]. apply in_seq in Hk.
    unfold level. fold (ofR pmin). fold (ofR pmax). rewrite !ofR_get by lia.
    change (n_div (n_add (XFin (rget pmin k) : XR) (XFin (rget pmax k) : XR)) (n_ofZ 2)) with (xdiv (XFin (rget pmin k + rget pmax k)) (XFin 2) : XR).
    rewrite xdiv_fin by lra. reflexivity. }
  rewrite EV in M, Hm. apply (median_range _ lo hi) in M; auto.
  - intros C. rewrite C in Hm. simpl in Hm. lia.
  - intros x Hx. apply in_map_iff in Hx as (k & <- & Hk). apply filter_In in Hk as [Hk W]. apply in_seq in Hk. apply andb_prop in W as [W _].
    apply HR; auto; lia.
Qed.

Lemma F64cr_pow_zero : pow_zero F64cr.
Proof.
  intros x y Hx Hy. rewrite (val_eqb _ F64sem), (val_0 F64sem) in *. rewrite (val_ltb _ F64sem), (val_0 F64sem) in Hy.
  apply xeqb_true in Hx as [Hx _]. apply xeqb_true.
  change (val F64sem (m_pow F64cr x y)) with (f_val (f_of_xr (xpow (f_val x) (f_val y)))). rewrite f_of_xr_val.
  change (val F64sem x) with (f_val x) in Hx. change (val F64sem y) with (f_val y) in Hy. rewrite Hx.
  assert (E : xpow (XFin 0) (f_val y) = XFin 0).
  { destruct (f_val y) as [| |r|]; simpl in Hy; try discriminate.
    - apply xpow_0. xcases; lra.
    - unfold xpow. repeat match goal with |- context [Req_bool ?a ?b] => destruct (Req_bool_spec a b) end; try lra;
      repeat match goal with |- context [Rlt_bool ?a ?b] => destruct (Rlt_bool_spec a b) end; try (exfalso; rewrite ?Rabs_R0 in *; lra); reflexivity. }
  rewrite E. assert (Z : f_rnd (XFin 0) = XFin 0) by exact (rnd_0 F64sem). rewrite Z. auto.
Qed.

Lemma retrieval_exact_full cubic (pref cmin cmax : list R) (F : list XR) (len a b waa alpha : R) thr ap T :
  length pref = T -> length cmin = T -> length cmax = T -> length F = T ->
  (0 < len)%R -> (0 < a)%R -> (0 < b)%R -> (0 <= alpha <= 1)%R ->
  exists rain, nearby_rainfall_retrival XRm cubic (ofR pref) (ofR cmin) (ofR cmax) F (XFin len : XR) None None
     (Some (CScalar (XFin a : XR))) (Some (CScalar (XFin b : XR))) ap (XFin waa : XR) (XFin alpha : XR) thr = Ok rain /\ length rain = T /\
  forall t, t < T ->
    (~ unfiltered F thr t -> get (n_nan : XR) rain t = n_nan) /\
    (n_isnan (get (n_nan : XR) F t) = true -> unfiltered F thr t) /\
    (unfiltered F thr t -> exists r : R,
      get (n_nan : XR) rain t = (XFin r : XR) /\
      let r_min := rain_of a b len (rain_attenuation (rget pref t) (rget cmax t) waa) in
      let r_max := rain_of a b len (rain_attenuation (rget pref t) (rget cmin t) waa) in
      r = (alpha * r_max + (1 - alpha) * r_min)%R /\ (0 <= r)%R /\ (Rmin r_min r_max <= r <= Rmax r_min r_max)%R /\
      ((rget cmin t <= rget cmax t)%R -> (r_min <= r <= r_max)%R)).
Proof.
  intros L1 L2 L3 L4 Hl Ha Hb Hal.
  destruct (retrieval_exact cubic pref cmin cmax F len a b waa alpha thr ap T) as (rain & E & LR & G); auto.
  exists rain. split; [exact E|]. split; [exact LR|]. intros t Ht. destruct (G t Ht) as [G1 G2]. split; [exact G1|]. split; [|exact G2].
  intros N. unfold unfiltered. destruct thr; auto. rewrite (val_leb _ XRsem). apply xleb_nan_l. rewrite <- (val_isnan _ XRsem). auto.
Qed.
