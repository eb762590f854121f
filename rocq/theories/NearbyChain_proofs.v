From Coq Require Import List ZArith Bool String Reals Lra Lia Arith.
From Verif Require Import Base Num NumF64 NumList NpOps Libm Libm64 RealSpec RealStat Median KR_model KR_spec KR_proofs KR_proofs2
  NearbyRain_model NearbyRain_spec NearbyRain_proofs NearbyWetdry_model NearbyWetdry_spec NearbyWetdry_proofs NearbyChain_model NearbyChain_spec Chain_spec.
Import ListNotations.
Local Open Scope nat_scope.
Local Notation length := List.length.

Lemma mapM_get {A B} (f : A -> res B) (d : A) (d' : B) l r : mapM f l = Ok r ->
  length r = length l /\ forall i, i < length l -> f (get d l i) = Ok (get d' r i).
Proof.
  revert r. induction l as [|x l IH]; intros r E.
  - injection E as <-. split; [reflexivity|]. simpl. intros; lia.
  - cbn [mapM] in E. destruct (f x) as [y|] eqn:Ex; [|discriminate]. cbn [bind] in E.
    destruct (mapM f l) as [ys|]; [|discriminate]. cbn [bind] in E. injection E as <-.
    destruct (IH ys eq_refl) as [L G]. split; [simpl; lia|].
    intros [|i] Hi; [exact Ex|]. apply G. simpl in Hi. lia.
Qed.

Section Any.
Context {O : numops} (S : numsem O) (L : libm O).
Variable cubic : list O -> list O -> O -> O.

(** ** one link *)
Lemma reference_closed (pmin pmax wet : list O) n mp :
  length pmin = length wet -> length pmax = length wet -> 1 <= mp <= n -> n <= length wet ->
  exists pref, nearby_determine_reference_level pmin pmax wet n mp = Ok pref /\ length pref = length wet /\
  forall t, t < length wet -> get n_nan pref t = let v := dry_levels pmin pmax wet n t in if Nat.ltb (length v) mp then n_nan else median v.
Proof.
  intros L1 L2 H1 H2. unfold nearby_determine_reference_level.
  set (pm := map2 _ _ (map2 _ pmin pmax)).
  assert (Lp : length pm = length wet) by (unfold pm; rewrite map2_length; rewrite map_length, ?map2_length; lia).
  destruct (rolling_get median n mp pm) as (r & E & Lr & G). { apply rolling_ok_true. lia. }
  exists r. split; [exact E|]. split; [lia|]. intros t Ht. set (v := dry_levels pmin pmax wet n t). rewrite G by lia. cbv zeta.
  assert (EV : not_nan (trailing n t pm) = v).
  { unfold trailing, v, dry_levels. rewrite <- (not_nan_map S). f_equal.
    replace (t + 1) with (t + 1 - n + (t + 1 - (t + 1 - n))) at 2 by lia.
    apply filter_map_seq; [lia|]. intros i Hi. unfold pm. apply (pmean_get S); lia. }
  rewrite EV. reflexivity.
Qed.

Definition value (p : nearby_par O) (al e pref pmin pmax wet F : O) : O :=
  if match np_F_threshold p with None => false | Some x => n_leb F x end then n_nan else
  let rainy := n_eqb wet (n_ofZ 1) && n_ltb pmin pref in
  mixed L (np_alpha p) al e (att pref (if rainy && n_ltb pmax pref then pmax else pref) (np_waa_max p))
        (att pref (if rainy then pmin else pref) (np_waa_max p)).

Definition ref (p : nearby_par O) (pmin pmax wet : list O) (t : nat) : O :=
  let v := dry_levels pmin pmax wet (np_average_dry p) t in if Nat.ltb (length v) (np_min_periods p) then n_nan else median v.

Lemma link_run p (pmin pmax wet F : list O) len f pol a b T :
  length pmin = T -> length pmax = T -> length wet = T -> length F = T ->
  1 <= np_min_periods p <= np_average_dry p -> np_average_dry p <= T ->
  a_b cubic [n_div f (n_ofZ (10 ^ 9))] (PolArr [pol]) "ITU_2005" = Ok ([a], [b]) ->
  exists R, nearby_link L cubic p pmin pmax wet F len f pol = Ok R /\ length R = T /\
  forall t, t < T -> get n_nan R t =
    value p (n_mul a len) (n_div one b) (ref p pmin pmax wet t) (get n_nan pmin t) (get n_nan pmax t) (get n_nan wet t) (get n_nan F t).
Proof.
  intros L1 L2 L3 L4 Hmp Hn Eab. unfold nearby_link.
  destruct (reference_closed pmin pmax wet (np_average_dry p) (np_min_periods p)) as (pref & E1 & Lp & Gp); try lia.
  rewrite E1. cbn [bind].
  destruct (correct_signals S pmin pmax wet pref T) as (cmin & cmax & E2 & Lmin & Lmax & G); try lia.
  rewrite E2. cbv zeta. cbn [fst snd]. rewrite (retrieval_freq L cubic _ _ _ _ _ _ _ _ _ _ _ a b Eab).
  destruct (retrieval_core L cubic pref cmin cmax F len (CArr [a]) (CArr [b]) a (n_div one b) (np_waa_max p) (np_alpha p) (np_F_threshold p) "ITU_2005" T)
    as (R & E3 & LR & GR); auto; try lia.
  exists R. split; [exact E3|]. split; [exact LR|]. intros t Ht. rewrite GR by auto. destruct (G t Ht) as (G1 & G2 & _).
  rewrite G1, G2, Gp by lia. reflexivity.
Qed.

Lemma link_coefs p (pmin pmax wet F : list O) len f pol R : nearby_link L cubic p pmin pmax wet F len f pol = Ok R ->
  exists a b, a_b cubic [n_div f (n_ofZ (10 ^ 9))] (PolArr [pol]) "ITU_2005" = Ok ([a], [b]).
Proof.
  unfold nearby_link. intros E. destruct (nearby_determine_reference_level _ _ _ _ _) as [pref|]; [|discriminate].
  cbn [bind] in E. cbv zeta in E. unfold nearby_rainfall_retrival in E.
  destruct (a_b cubic [n_div f (n_ofZ (10 ^ 9))] (PolArr [pol]) "ITU_2005") as [[la lb]|] eqn:Eab; [|discriminate].
  destruct (a_b_lengths cubic _ _ _ _ _ Eab) as [La Lb].
  destruct la as [|a [|]]; try discriminate La. destruct lb as [|b [|]]; try discriminate Lb. eauto.
Qed.

(** ** the classification only uses the data so far and two more steps *)
Lemma recent_agree w t (f g : nat -> O) : (forall k, k <= t -> f k = g k) -> recent w t f = recent w t g.
Proof. intros H. unfold recent. f_equal. apply map_ext_in. intros k Hk. apply in_seq in Hk. apply H. lia. Qed.

Lemma drop_agree s (pmin pmin' : list (list O)) w k i t : same_start s pmin pmin' -> i < length pmin -> t < s ->
  drop pmin w k i t = drop pmin' w k i t.
Proof.
  intros [_ H] Hi Ht. unfold drop. rewrite (H i t Hi Ht). rewrite (recent_agree w t (cell pmin i) (cell pmin' i)); [reflexivity|].
  intros j Hj. apply H; auto; lia.
Qed.

Lemma link_median_agree (dP dX dP' dX' : nat -> nat -> O) nb ml t :
  (forall j, In j nb -> dP j t = dP' j t) -> (forall j, In j nb -> dX j t = dX' j t) ->
  link_median dP dX nb ml t = link_median dP' dX' nb ml t.
Proof.
  intros H1 H2. unfold link_median. rewrite (map_ext_in (fun j => dP j t) (fun j => dP' j t) nb H1).
  rewrite (map_ext_in (fun j => dX j t) (fun j => dX' j t) nb H2). reflexivity.
Qed.

Lemma cls_agree s T T' thrP thrPL (mP mPL own mP' mPL' own' : nat -> O) t : s <= T -> s <= T' -> t + 2 < s ->
  (forall u, u < s -> mP u = mP' u) -> (forall u, u < s -> mPL u = mPL' u) -> (forall u, u < s -> own u = own' u) ->
  cls T thrP thrPL mP mPL own t = cls T' thrP thrPL mP' mPL' own' t.
Proof.
  intros H H' Ht E1 E2 E3. unfold cls, strong, median_rule.
  replace (Nat.leb T (t + 2)) with false by (symmetry; apply Nat.leb_gt; lia).
  replace (Nat.leb T' (t + 2)) with false by (symmetry; apply Nat.leb_gt; lia).
  rewrite !E1, !E2, !E3 by lia. reflexivity.
Qed.

Lemma score_agree interval w (dPL mPL dPL' mPL' : nat -> O) t :
  (forall u, u <= t -> dPL u = dPL' u) -> (forall u, u <= t -> mPL u = mPL' u) ->
  score interval w dPL mPL t = score interval w dPL' mPL' t.
Proof.
  intros E1 E2. unfold score. cbv zeta.
  rewrite (recent_agree w t (fun k => n_sub (dPL k) (mPL k)) (fun k => n_sub (dPL' k) (mPL' k))); [reflexivity|].
  intros k Hk. cbv beta. rewrite E1, E2 by lia. reflexivity.
Qed.

Lemma wetdry_agree s T T' (pmin pmin' : list (list O)) lens d radius thrP thrPL ml interval tp mh wet F wet' F' :
  call_ok T pmin lens d radius interval tp mh -> call_ok T' pmin' lens d radius interval tp mh ->
  s <= T -> s <= T' -> same_start s pmin pmin' ->
  nearby_wetdry T pmin lens d radius thrP thrPL ml interval tp mh = Ok (wet, F) ->
  nearby_wetdry T' pmin' lens d radius thrP thrPL ml interval tp mh = Ok (wet', F') ->
  forall i, i < length pmin ->
    (forall t, t + 2 < s -> cell wet i t = cell wet' i t) /\ (forall t, t < s -> cell F i t = cell F' i t).
Proof.
  intros C C' HT HT' SS E E' i Hi. destruct C, C'. destruct SS as [LN SS].
  destruct (nearby_wetdry_closed S T pmin lens d radius thrP thrPL ml interval tp mh) as (w1 & f1 & E1 & Lw & LF & G); auto.
  destruct (nearby_wetdry_closed S T' pmin' lens d radius thrP thrPL ml interval tp mh) as (w2 & f2 & E2 & Lw' & LF' & G'); auto.
  rewrite E in E1. injection E1 as <- <-. rewrite E' in E2. injection E2 as <- <-.
  destruct (G i Hi) as (_ & _ & N1 & N2). destruct (G' i ltac:(lia)) as (_ & _ & N1' & N2'). clear G G'.
  rewrite <- LN in N1', N2'. set (nb := neighbours d radius (length pmin) i) in *.
  set (per := tp * 60 / interval) in *. set (hr := mh * 60 / interval) in *.
  assert (INB : forall j, In j nb -> j < length pmin).
  { intros j Hj. unfold nb, neighbours in Hj. apply filter_In in Hj as [Hj _]. apply in_seq in Hj. lia. }
  assert (D : forall j u, j < length pmin -> u < s -> drop pmin per hr j u = drop pmin' per hr j u).
  { intros j u Hj Hu. apply (drop_agree s); auto. split; auto. }
  destruct (Nat.le_gt_cases (length nb) ml) as [Hm|Hm].
  - specialize (N1 Hm). specialize (N1' Hm). split; intros t Ht; destruct (N1 t ltac:(lia)) as [A B], (N1' t ltac:(lia)) as [A' B']; congruence.
  - specialize (N2 Hm). specialize (N2' Hm). cbv zeta in N2, N2'.
    assert (M1 : forall u, u < s -> link_median (drop pmin per hr) (drop pmin per hr) nb ml u = link_median (drop pmin' per hr) (drop pmin' per hr) nb ml u).
    { intros u Hu. apply link_median_agree; intros j Hj; apply D; auto. }
    assert (M2 : forall u, u < s -> link_median (drop pmin per hr) (fun j t => n_div (drop pmin per hr j t) (get n_nan lens j)) nb ml u
      = link_median (drop pmin' per hr) (fun j t => n_div (drop pmin' per hr j t) (get n_nan lens j)) nb ml u).
    { intros u Hu. apply link_median_agree; intros j Hj; cbv beta; rewrite D; auto. }
    split; intros t Ht; destruct (N2 t ltac:(lia)) as [A B], (N2' t ltac:(lia)) as [A' B']; [rewrite A, A'|rewrite B, B'].
    + apply (cls_agree s); auto; intros; apply D; auto.
    + apply score_agree; intros; cbv beta; [rewrite D by (auto; lia); reflexivity|apply M2; lia].
Qed.

Lemma dry_levels_agree (pmin pmax wet pmin' pmax' wet' : list O) n t :
  (forall k, k <= t -> get n_nan pmin k = get n_nan pmin' k) -> (forall k, k <= t -> get n_nan pmax k = get n_nan pmax' k) ->
  (forall k, k <= t -> get n_nan wet k = get n_nan wet' k) ->
  dry_levels pmin pmax wet n t = dry_levels pmin' pmax' wet' n t.
Proof.
  intros E1 E2 E3. unfold dry_levels.
  assert (LV : forall k, k <= t -> level pmin pmax k = level pmin' pmax' k) by (intros k Hk; unfold level; rewrite E1, E2 by auto; reflexivity).
  rewrite (filter_ext_in _ (fun k => n_eqb (get n_nan wet' k) (n_ofZ 0) && negb (n_isnan (level pmin' pmax' k)))).
  - apply map_ext_in. intros k Hk. apply filter_In in Hk as [Hk _]. apply in_seq in Hk. apply LV. lia.
  - intros k Hk. apply in_seq in Hk. rewrite E3, LV by lia. reflexivity.
Qed.

Lemma chain_parts p nw T (pmin pmax : list (list O)) R : record_ok p nw T pmin pmax -> nearby_chain L cubic p nw T pmin pmax = Ok R ->
  exists wet F, nearby_wetdry T pmin (nw_len nw) (nw_dist nw) (np_radius p) (np_thr_P p) (np_thr_PL p) (np_min_links p) (np_interval p) (np_timeperiod p) (np_min_hours p) = Ok (wet, F) /\
  length R = length pmin /\
  forall i, i < length pmin -> length (get [] wet i) = T /\ length (get [] F i) = T /\
  exists a b, a_b cubic [n_div (get n_nan (nw_freq nw) i) (n_ofZ (10 ^ 9))] (PolArr [get EmptyString (nw_pol nw) i]) "ITU_2005" = Ok ([a], [b]) /\
    length (get [] R i) = T /\ forall t, t < T -> cell R i t =
      value p (n_mul a (get n_nan (nw_len nw) i)) (n_div one b) (ref p (get [] pmin i) (get [] pmax i) (get [] wet i) t) (cell pmin i t) (cell pmax i t) (cell wet i t) (cell F i t).
Proof.
  intros (C & Lx & Rx & Hmp & Hn) E. unfold nearby_chain in E.
  destruct (nearby_wetdry _ _ _ _ _ _ _ _ _ _ _) as [[wet F]|] eqn:EW; [|discriminate]. cbn [bind] in E.
  exists wet, F. split; [reflexivity|]. destruct C.
  destruct (nearby_wetdry_closed S T pmin (nw_len nw) (nw_dist nw) (np_radius p) (np_thr_P p) (np_thr_PL p) (np_min_links p) (np_interval p) (np_timeperiod p) (np_min_hours p))
    as (w1 & f1 & E1 & Lw & LF & G); auto.
  rewrite EW in E1. injection E1 as <- <-.
  destruct (mapM_get _ 0 [] _ _ E) as [LR GR]. rewrite seq_length in LR, GR. split; [exact LR|].
  intros i Hi. destruct (G i Hi) as (T1 & T2 & _). split; [exact T1|]. split; [exact T2|].
  specialize (GR i Hi). assert (Gs : get 0 (seq 0 (length pmin)) i = i) by (unfold get; rewrite seq_nth by auto; reflexivity).
  rewrite Gs in GR. cbn [fst snd] in GR. destruct (link_coefs _ _ _ _ _ _ _ _ _ GR) as (a & b & Eab).
  exists a, b. split; [exact Eab|].
  destruct (link_run p (get [] pmin i) (get [] pmax i) (get [] wet i) (get [] F i) (get n_nan (nw_len nw) i) (get n_nan (nw_freq nw) i) (get EmptyString (nw_pol nw) i) a b T)
    as (R1 & ER & LR1 & GR1); auto.
  rewrite GR in ER. injection ER as <-. split; [exact LR1|]. exact GR1.
Qed.

Lemma final_after_two p nw s T T' (pmin pmax pmin' pmax' : list (list O)) R R' :
  record_ok p nw T pmin pmax -> record_ok p nw T' pmin' pmax' -> s <= T -> s <= T' ->
  same_start s pmin pmin' -> same_start s pmax pmax' ->
  nearby_chain L cubic p nw T pmin pmax = Ok R -> nearby_chain L cubic p nw T' pmin' pmax' = Ok R' ->
  forall i t, i < length pmin -> t + 2 < s -> cell R i t = cell R' i t.
Proof.
  intros C C' HT HT' S1 S2 E E' i t Hi Ht.
  destruct (chain_parts p nw T pmin pmax R C E) as (wet & F & EW & _ & G).
  destruct (chain_parts p nw T' pmin' pmax' R' C' E') as (wet' & F' & EW' & _ & G').
  pose proof C as (CO & LX & _). pose proof C' as (CO' & _).
  destruct (wetdry_agree s T T' pmin pmin' _ _ _ _ _ _ _ _ _ _ _ _ _ CO CO' HT HT' S1 EW EW' i Hi) as [AW AF].
  destruct S1 as [LN S1], S2 as [LN2 S2].
  destruct (G i Hi) as (_ & _ & a & b & Eab & _ & GR). destruct (G' i ltac:(lia)) as (_ & _ & a' & b' & Eab' & _ & GR').
  rewrite Eab in Eab'. injection Eab' as <- <-. rewrite GR, GR' by lia.
  rewrite (AW t Ht), (AF t ltac:(lia)), (S1 i t Hi ltac:(lia)), (S2 i t ltac:(lia) ltac:(lia)).
  assert (ER : ref p (get [] pmin i) (get [] pmax i) (get [] wet i) t = ref p (get [] pmin' i) (get [] pmax' i) (get [] wet' i) t).
  { unfold ref. cbv zeta. rewrite (dry_levels_agree (get [] pmin i) (get [] pmax i) (get [] wet i) (get [] pmin' i) (get [] pmax' i) (get [] wet' i)); [reflexivity| | |]; intros k Hk.
    - apply (S1 i k); auto; lia.
    - apply (S2 i k); lia.
    - apply (AW k). lia. }
  rewrite ER. reflexivity.
Qed.

(** ** missing or not negative *)
Definition good (x : O) : Prop := missing x \/ nonneg x.

Lemma missing_val (x : O) : missing x <-> val S x = XNaN.
Proof. unfold missing. rewrite (val_isnan _ S). destruct (val S x); simpl; split; congruence. Qed.
Lemma rnd_xnan : rnd S XNaN = XNaN.
Proof. pose proof (rnd_nan _ S XNaN) as H. destruct (rnd S XNaN); try discriminate; auto. Qed.
Lemma nonneg_rnd v : xleb (XFin 0) v = true -> xleb (XFin 0) (rnd S v) = true.
Proof. intros H. rewrite <- (rnd_0 S). apply (rnd_mono _ S). exact H. Qed.

Lemma att_good (pref x waa : O) : good (att pref x waa).
Proof.
  unfold att. cbv zeta. set (y := n_sub (n_sub pref x) waa). destruct (n_ltb y zero) eqn:E.
  - right. unfold nonneg, zero. apply (leb_refl S). apply (isnan_ofZ S). compute; discriminate.
  - unfold good, missing, nonneg. rewrite (val_isnan _ S), (val_leb _ S), (val_0 S). rewrite (val_ltb _ S) in E. unfold zero in E. rewrite (val_0 S) in E.
    destruct (val S y); simpl in *; try discriminate; auto. right. xcases; auto; lra.
Qed.
Lemma att_nan (pref x waa : O) : missing pref -> missing (att pref x waa).
Proof.
  intros H. assert (N : n_isnan (n_sub (n_sub pref x) waa) = true) by (apply (sub_nan_l S), (sub_nan_l S), H).
  unfold att. cbv zeta. rewrite (ltb_nan_l S _ _ N). exact N.
Qed.

Lemma div_missing (x al : O) : missing x -> positive al -> missing (n_div x al).
Proof.
  intros H P. apply missing_val in H. apply missing_val. unfold positive in P. rewrite (val_ltb _ S), (val_0 S) in P.
  rewrite (val_div _ S); [rewrite H; simpl; apply rnd_xnan|]. intros E. rewrite E in P. simpl in P. xcases; lra.
Qed.
Lemma mul_missing (x y : O) : missing y -> missing (n_mul x y).
Proof. intros H. apply missing_val in H. apply missing_val. rewrite (val_mul _ S), H. destruct (val S x); apply rnd_xnan. Qed.
Lemma add_missing_l (x y : O) : missing x -> missing (n_add x y).
Proof. intros H. apply missing_val in H. apply missing_val. rewrite (val_add _ S), H. apply rnd_xnan. Qed.
Lemma add_missing_r (x y : O) : missing y -> missing (n_add x y).
Proof. intros H. apply missing_val in H. apply missing_val. rewrite (val_add _ S), H. destruct (val S x); apply rnd_xnan. Qed.

Lemma mul_good (x y : O) : nonneg x -> finite x -> good y -> good (n_mul x y).
Proof.
  intros Hx [N I] [Hy|Hy]; [left; apply mul_missing; auto|].
  unfold good. rewrite missing_val. unfold nonneg in *. rewrite !(val_leb _ S), (val_0 S) in *. rewrite (val_mul _ S).
  rewrite (val_isnan _ S) in N. rewrite (val_isinf _ S) in I.
  destruct (val S x) as [| |r|]; try discriminate. destruct (val S y) as [| |q|]; try discriminate.
  - right. apply nonneg_rnd. simpl in *. xcases; auto. exfalso. assert (0 <= r * q)%R by (apply Rmult_le_pos; auto). lra.
  - simpl in Hx. cbn [xmul xsgn]. destruct (Raux.Rle_bool_spec 0 r); [|discriminate]. destruct (Req_dec r 0) as [->|NZ].
    + rewrite Raux.Rcompare_Eq by reflexivity. left. apply rnd_xnan.
    + rewrite Raux.Rcompare_Gt by lra. right. apply nonneg_rnd. reflexivity.
Qed.
Lemma add_good (x y : O) : good x -> good y -> good (n_add x y).
Proof.
  intros [Hx|Hx]; [left; apply add_missing_l; auto|]. intros [Hy|Hy]; [left; apply add_missing_r; auto|]. right.
  unfold nonneg in *. rewrite !(val_leb _ S), (val_0 S) in *. rewrite (val_add _ S). apply nonneg_rnd.
  destruct (val S x), (val S y); simpl in *; try discriminate; auto. xcases; auto; lra.
Qed.
Lemma pow_good (sane : pow_sane L) (pn : pow_nan L) (x e : O) : good x -> positive e -> good (m_pow L x e).
Proof.
  intros [Hx|Hx] He; [left; apply pn; auto|right]. apply sane; auto. apply (pos_nonneg S); auto.
Qed.
Lemma div_good (x al : O) : good x -> positive al -> finite al -> good (n_div x al).
Proof. intros [H|H] P F; [left; apply div_missing; auto|right; apply (div_nonneg S); auto]. Qed.

Lemma one_minus_nonneg (alpha : O) : nonneg alpha -> n_leb alpha (n_ofZ 1) = true -> nonneg (n_sub one alpha).
Proof.
  unfold nonneg, one. rewrite !(val_leb _ S), (val_0 S), (val_sub _ S), (val_ofZ _ S) by (compute; discriminate).
  intros H0 H1. apply nonneg_rnd. destruct (val S alpha); simpl in *; try discriminate. xcases; auto; lra.
Qed.

Lemma value_good (sane : pow_sane L) (pn : pow_nan L) p al e pref pmin pmax wet F :
  par_ok p -> positive al -> finite al -> positive e -> good (value p al e pref pmin pmax wet F).
Proof.
  intros (_ & A0 & A1) Pa Fa Pe. unfold value. destruct (match np_F_threshold p with None => false | Some x => n_leb F x end).
  { left. apply (isnan_nan S). }
  cbv zeta. unfold mixed. apply add_good; apply mul_good; auto using (finite_unit S), (finite_one_minus S), one_minus_nonneg;
    apply pow_good; auto; apply div_good; auto using att_good.
Qed.

Lemma value_missing (pn : pow_nan L) p al e pref pmin pmax wet F :
  positive al -> positive e -> missing pref -> missing (value p al e pref pmin pmax wet F).
Proof.
  intros Pa Pe M. unfold value. destruct (match np_F_threshold p with None => false | Some x => n_leb F x end).
  { apply (isnan_nan S). }
  cbv zeta. unfold mixed. apply add_missing_l, mul_missing, pn; auto. apply div_missing; auto. apply att_nan; auto.
Qed.

Lemma value_dry (pn : pow_nan L) (pz : NearbyRain_spec.pow_zero L) p al e pref pmin pmax wet F :
  par_ok p -> positive al -> positive e -> n_eqb wet (n_ofZ 1) = false \/ missing pmin ->
  missing (value p al e pref pmin pmax wet F) \/ n_eqb (value p al e pref pmin pmax wet F) (n_ofZ 0) = true.
Proof.
  intros (W & A0 & A1) Pa Pe Hw.
  assert (RF : n_eqb wet (n_ofZ 1) && n_ltb pmin pref = false).
  { destruct Hw as [D|D]; [rewrite D; auto|]. rewrite (ltb_nan_l S _ _ D). apply andb_false_r. }
  unfold value. destruct (match np_F_threshold p with None => false | Some x => n_leb F x end); [left; apply (isnan_nan S)|].
  rewrite RF. cbv zeta. cbn [andb].
  destruct (n_isnan pref) eqn:N.
  { left. unfold mixed. apply add_missing_l, mul_missing, pn; auto. apply div_missing; auto. apply att_nan; auto. }
  destruct (n_isinf pref) eqn:I.
  - left. assert (M : missing (att pref pref (np_waa_max p))).
    { assert (N2 : n_isnan (n_sub (n_sub pref pref) (np_waa_max p)) = true).
      { apply (sub_nan_l S). rewrite (val_isnan _ S), (val_sub _ S). rewrite (val_isinf _ S) in I.
        destruct (val S pref); try discriminate; simpl; rewrite rnd_xnan; reflexivity. }
      unfold att. cbv zeta. rewrite (ltb_nan_l S _ _ N2). exact N2. }
    unfold mixed. apply add_missing_l, mul_missing, pn; auto. apply div_missing; auto.
  - right. apply (mixed_zero S); auto; apply (att_zero S); auto; split; auto.
Qed.

Lemma ref_missing p (pmin pmax wet : list O) t : 1 <= np_min_periods p ->
  (forall k, k <= t -> t < k + np_average_dry p -> n_eqb (get n_nan wet k) (n_ofZ 0) = false) -> missing (ref p pmin pmax wet t).
Proof.
  intros Hmp H. assert (E : dry_levels pmin pmax wet (np_average_dry p) t = []).
  { unfold dry_levels. rewrite (filter_ext_in _ (fun _ => false)).
    - induction (seq _ _); auto.
    - intros k Hk. apply in_seq in Hk. rewrite H by lia. reflexivity. }
  unfold ref. rewrite E. cbv zeta. simpl length. destruct (Nat.ltb_spec 0 (np_min_periods p)); [|lia]. apply (isnan_nan S).
Qed.

(** ** the whole chain *)
Lemma chain_total p nw T (pmin pmax : list (list O)) : record_ok p nw T pmin pmax -> links_ok cubic nw (length pmin) ->
  exists R, nearby_chain L cubic p nw T pmin pmax = Ok R.
Proof.
  intros (C & Lx & Rx & Hmp & Hn) LK. unfold nearby_chain. destruct C.
  destruct (nearby_wetdry_closed S T pmin (nw_len nw) (nw_dist nw) (np_radius p) (np_thr_P p) (np_thr_PL p) (np_min_links p) (np_interval p) (np_timeperiod p) (np_min_hours p))
    as (wet & F & E1 & Lw & LF & G); auto. rewrite E1. cbn [bind].
  match goal with |- exists R, mapM ?f ?l = Ok R => destruct (mapM_ok f 0 [] (fun _ _ => True) l) as (R & E & _) end.
  { intros i Hi. apply in_seq in Hi. destruct (G i) as (T1 & T2 & _); [lia|]. destruct (LK i) as (a & b & Eab & _); [lia|].
    destruct (link_run p (get [] pmin i) (get [] pmax i) (get [] wet i) (get [] F i) (get n_nan (nw_len nw) i) (get n_nan (nw_freq nw) i) (get EmptyString (nw_pol nw) i) a b T)
      as (R1 & ER & _); auto; try lia; [apply ok_rows; lia|apply Rx; lia|]. exists R1. auto. }
  exists R. exact E.
Qed.

Lemma cls_not_zero T thrP thrPL mP mPL own t : t = 0 -> n_eqb (cls (O := O) T thrP thrPL mP mPL own t) (n_ofZ 0) = false.
Proof.
  intros ->. unfold cls. cbn [Nat.eqb orb]. destruct (n_isnan (mP 0) || n_isnan (mPL 0)).
  - apply (eqb_nan_l S). apply (isnan_nan S).
  - apply not_true_is_false. intros E. rewrite (val_eqb _ S), (val_0 S), (val_ofZ _ S) in E by (compute; discriminate).
    apply xeqb_true in E as [E _]. injection E as E. lra.
Qed.

Lemma chain_results (sane : pow_sane L) (pn : pow_nan L) (pz : NearbyRain_spec.pow_zero L) p nw T (pmin pmax : list (list O)) :
  record_ok p nw T pmin pmax -> links_ok cubic nw (length pmin) -> par_ok p ->
  exists wet F R,
    nearby_wetdry T pmin (nw_len nw) (nw_dist nw) (np_radius p) (np_thr_P p) (np_thr_PL p) (np_min_links p) (np_interval p) (np_timeperiod p) (np_min_hours p) = Ok (wet, F) /\
    nearby_chain L cubic p nw T pmin pmax = Ok R /\ length R = length pmin /\
    forall i, i < length pmin -> length (get [] R i) = T /\ forall t, t < T ->
      (missing (cell R i t) \/ nonneg (cell R i t)) /\
      (n_eqb (cell wet i t) (n_ofZ 1) = false \/ missing (cell pmin i t) -> missing (cell R i t) \/ n_eqb (cell R i t) (n_ofZ 0) = true) /\
      ((forall k, k <= t -> t < k + np_average_dry p -> n_eqb (cell wet i k) (n_ofZ 0) = false) -> missing (cell R i t)) /\
      (t = 0 \/ length (neighbours (nw_dist nw) (np_radius p) (length pmin) i) <= np_min_links p -> missing (cell R i t)).
Proof.
  intros C LK PO. destruct (chain_total p nw T pmin pmax C LK) as (R & E).
  destruct (chain_parts p nw T pmin pmax R C E) as (wet & F & EW & LR & G).
  exists wet, F, R. split; [exact EW|]. split; [exact E|]. split; [exact LR|].
  intros i Hi. destruct (G i Hi) as (T1 & T2 & a & b & Eab & LRi & GR). split; [exact LRi|].
  destruct (LK i Hi) as (a' & b' & Eab' & Pa & Fa & Pb & Pe). rewrite Eab in Eab'. injection Eab' as <- <-.
  intros t Ht. rewrite GR by auto.
  pose proof C as (CO & Lx & Rx & Hmp & Hn).
  assert (ND : (forall k, k <= t -> t < k + np_average_dry p -> n_eqb (cell wet i k) (n_ofZ 0) = false) -> missing (ref p (get [] pmin i) (get [] pmax i) (get [] wet i) t)).
  { intros H. apply ref_missing; [lia|]. exact H. }
  split; [apply value_good; auto|]. split; [intros H; apply value_dry; auto|]. split; [intros H; apply value_missing; auto|].
  intros H. apply value_missing; auto. apply ND. intros k Hk _.
  destruct CO. destruct (nearby_wetdry_closed S T pmin (nw_len nw) (nw_dist nw) (np_radius p) (np_thr_P p) (np_thr_PL p) (np_min_links p) (np_interval p) (np_timeperiod p) (np_min_hours p))
    as (w1 & f1 & E1 & Lw & LF & GW); auto. rewrite EW in E1. injection E1 as <- <-.
  destruct (GW i Hi) as (_ & _ & N1 & N2).
  destruct (Nat.le_gt_cases (length (neighbours (nw_dist nw) (np_radius p) (length pmin) i)) (np_min_links p)) as [Hm|Hm].
  - destruct (N1 Hm k ltac:(lia)) as [-> _]. apply (eqb_nan_l S). apply (isnan_nan S).
  - destruct H as [H|H]; [|lia]. destruct (N2 Hm k ltac:(lia)) as [-> _]. apply cls_not_zero. lia.
Qed.
End Any.

Lemma F64cr_pow_nan : pow_nan F64cr.
Proof.
  intros x y Hx Hy. unfold positive in Hy. rewrite (val_ltb _ F64sem), (val_0 F64sem) in Hy. rewrite (val_isnan _ F64sem) in *.
  change (val F64sem (m_pow F64cr x y)) with (f_val (f_of_xr (xpow (f_val x) (f_val y)))). rewrite f_of_xr_val.
  change (val F64sem x) with (f_val x) in Hx. change (val F64sem y) with (f_val y) in Hy.
  destruct (f_val x); try discriminate.
  assert (E : xpow XNaN (f_val y) = XNaN).
  { destruct (f_val y) as [| |r|]; simpl in Hy; try discriminate; simpl; auto. xcases; auto; lra. }
  rewrite E. reflexivity.
Qed.
