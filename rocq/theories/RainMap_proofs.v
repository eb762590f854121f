(** * Rain maps: never negative, monotone, unreliable links left out, silent links counted as dry *)
From Coq Require Import List ZArith Bool Reals Lia Lra.
From Flocq Require Import Core BinarySingleNaN.
From Verif Require Import Base Num NumF64 NumList NpOps Libm Libm64 Idw_model Idw_spec Idw_proofs3 Baseline_model Baseline_spec KR_model KR_spec KR_proofs Chain_model Chain_spec
  Chain_proofs BaselineFloat_proofs Workflow_model Workflow_spec Workflow_proofs RainMap_model RainMap_spec.
Import ListNotations.
Local Open Scope nat_scope.
Local Notation length := List.length.

Section Gen.
Context {O : numops} (S : numsem O) (L : libm O).

(** ** numbers that are missing or at least 0 *)
Definition xrom (v : xr) : Prop := xisnan v = true \/ xleb (XFin 0) v = true.
Lemma rom_x (v : O) : rain_or_missing v <-> xrom (val S v).
Proof using. unfold rain_or_missing, xrom, missing, nonneg. rewrite (val_isnan _ S), (val_leb _ S), (val_0 S). tauto. Qed.
Lemma xrom_rnd v : xrom v -> xrom (rnd S v).
Proof using.
  intros [H|H]; [left; rewrite (rnd_nan _ S); auto|right]. rewrite <- (rnd_0 S). apply (rnd_mono _ S); auto.
Qed.
Lemma rom_zero : rain_or_missing (zero : O).
Proof using S. apply rom_x. right. unfold zero. rewrite (val_0 S). cbn. apply Rle_bool_true. lra. Qed.
Lemma rom_nan : rain_or_missing (n_nan : O).
Proof using S. left. apply (isnan_nan S). Qed.
Lemma not_negative_rom (x : O) : not_negative x -> rain_or_missing x.
Proof using S.
  unfold not_negative. rewrite (val_ltb _ S), (val_0 S), rom_x. unfold xrom. destruct (val S x); cbn; auto; try discriminate.
  intros H. right. destruct (Rlt_bool_spec r 0); try discriminate. apply Rle_bool_true. lra.
Qed.
Lemma rom_add (x y : O) : rain_or_missing x -> rain_or_missing y -> rain_or_missing (n_add x y).
Proof using S.
  rewrite !rom_x, (val_add _ S). intros H K. apply xrom_rnd. unfold xrom in *.
  destruct (val S x), (val S y); cbn in *; auto; destruct H as [H|H]; try discriminate H; destruct K as [K|K]; try discriminate K.
  right. destruct (Rle_bool_spec 0 r), (Rle_bool_spec 0 r0); try discriminate. apply Rle_bool_true. lra.
Qed.
Lemma rom_mul (x y : O) : rain_or_missing x -> rain_or_missing y -> rain_or_missing (n_mul x y).
Proof using S.
  rewrite !rom_x, (val_mul _ S). intros H K. apply xrom_rnd. unfold xrom in *.
  destruct (val S x), (val S y); cbn in *; auto; destruct H as [H|H]; try discriminate H; destruct K as [K|K]; try discriminate K;
  try destruct (Rle_bool_spec 0 r) as [P|P]; try discriminate; try destruct (Rle_bool_spec 0 r0) as [Q|Q]; try discriminate; unfold xisnan;
  repeat (match goal with |- context [Rcompare ?a ?b] => destruct (Rcompare_spec a b); cbn | |- context [Rlt_bool ?a ?b] => destruct (Rlt_bool_spec a b) | |- context [Req_bool ?a ?b] => destruct (Req_bool_spec a b) end); auto; try lra;
  try (right; cbn; apply Rle_bool_true; nra).
Qed.
Lemma rom_sum l : forall a : O, rain_or_missing a -> (forall v, In v l -> rain_or_missing v) -> rain_or_missing (fold_left n_add l a).
Proof using S.
  induction l as [|v l IH]; intros a Ha H; auto. cbn [fold_left]. apply IH; [apply rom_add; auto; apply H; left; auto|intros; apply H; right; auto].
Qed.
(** sums only grow *)
Lemma xleb_trans a b c : xleb a b = true -> xleb b c = true -> xleb a c = true.
Proof using.
  destruct a, b, c; cbn; auto; try discriminate. destruct (Rle_bool_spec r r0), (Rle_bool_spec r0 r1); try discriminate. intros _ _. apply Rle_bool_true. lra.
Qed.
Lemma add_grows (x y : O) : rain_or_missing x -> rain_or_missing y -> missing (n_add x y) \/ (n_leb x (n_add x y) = true /\ n_leb y (n_add x y) = true).
Proof using S.
  rewrite !rom_x. unfold missing. rewrite (val_isnan _ S), !(val_leb _ S), (val_add _ S), (rnd_nan _ S). intros H K.
  destruct (xisnan (xadd (val S x) (val S y))) eqn:E; auto. right.
  assert (G : xleb (val S x) (xadd (val S x) (val S y)) = true /\ xleb (val S y) (xadd (val S x) (val S y)) = true).
  { unfold xrom in *. destruct (val S x), (val S y); cbn in *; try discriminate E; destruct H as [H|H]; try discriminate H; destruct K as [K|K]; try discriminate K; auto.
    destruct (Rle_bool_spec 0 r), (Rle_bool_spec 0 r0); try discriminate. split; apply Rle_bool_true; lra. }
  destruct G as [G1 G2]. split; [rewrite <- (rnd_val _ S x) at 1|rewrite <- (rnd_val _ S y) at 1]; apply (rnd_mono _ S); auto.
Qed.
Lemma sum_grows l : forall a : O, rain_or_missing a -> (forall v, In v l -> rain_or_missing v) -> missing (fold_left n_add l a) \/ n_leb a (fold_left n_add l a) = true.
Proof using S.
  induction l as [|v l IH]; intros a Ha H.
  - cbn [fold_left]. unfold missing. destruct (n_isnan a) eqn:E; auto. right. apply (leb_refl S). auto.
  - cbn [fold_left]. assert (Hv : rain_or_missing v) by (apply H; left; auto).
    destruct (IH (n_add a v)) as [K|K]; [apply rom_add; auto|intros; apply H; right; auto|auto|].
    right. destruct (add_grows a v Ha Hv) as [M|[M _]].
    + unfold missing in M. apply (leb_nan S) in K as [K _]. congruence.
    + apply (leb_trans S) with (n_add a v); auto.
Qed.
Lemma sum_above l : forall a v : O, rain_or_missing a -> (forall v, In v l -> rain_or_missing v) -> In v l -> missing (fold_left n_add l a) \/ n_leb v (fold_left n_add l a) = true.
Proof using S.
  induction l as [|w l IH]; intros a v Ha H Hv; [destruct Hv|]. cbn [fold_left]. assert (Hw : rain_or_missing w) by (apply H; left; auto).
  destruct Hv as [<-|Hv]; [|apply IH; auto; [apply rom_add; auto|intros; apply H; right; auto]].
  destruct (sum_grows l (n_add a w)) as [K|K]; [apply rom_add; auto|intros; apply H; right; auto|auto|].
  right. destruct (add_grows a w Ha Hw) as [M|[_ M]].
  - unfold missing in M. apply (leb_nan S) in K as [K _]. congruence.
  - apply (leb_trans S) with (n_add a w); auto.
Qed.
(** dividing by a sum that contains it *)
Lemma rom_share (x s : O) : rain_or_missing x -> rain_or_missing s -> missing s \/ n_leb x s = true -> rain_or_missing (n_div x s).
Proof using S.
  rewrite !rom_x. unfold missing. rewrite (val_isnan _ S), (val_leb _ S). intros Hx Hs H.
  destruct (val S s) as [| |r|] eqn:E; try (destruct Hs as [Hs|Hs]; discriminate).
  - rewrite (val_div _ S) by congruence. apply xrom_rnd. rewrite E. left. destruct (val S x); reflexivity.
  - destruct Hs as [Hs|Hs]; [discriminate|]. cbn in Hs. destruct (Rle_bool_spec 0 r) as [Hr|]; try discriminate.
    destruct (Req_dec r 0) as [->|NZ].
    + destruct (val_div0 _ S x s E) as [A _]. left. rewrite A; auto.
      destruct H as [H|H]; [discriminate|]. destruct Hx as [Hx|Hx]; auto. right.
      destruct (val S x) as [| |a|]; cbn in *; try discriminate. f_equal.
      destruct (Rle_bool_spec 0 a), (Rle_bool_spec a 0); try discriminate. lra.
    + rewrite (val_div _ S) by (rewrite E; intros K; injection K; lra). apply xrom_rnd. rewrite E. unfold xrom in *.
      destruct (val S x) as [| |a|]; cbn in *; auto; destruct Hx as [Hx|Hx]; try discriminate; rewrite ?Req_bool_false by lra.
      * right. cbn. destruct (Rle_bool_spec 0 a); try discriminate. apply Rle_bool_true. apply Rmult_le_pos; [lra|left; apply Rinv_0_lt_compat; lra].
      * right. rewrite Rlt_bool_false by lra. reflexivity.
  - rewrite (val_div _ S) by congruence. apply xrom_rnd. rewrite E. unfold xrom in *. destruct (val S x) as [| |a|]; cbn in *; auto.
    right. apply Rle_bool_true. lra.
Qed.

(** ** inverse distance weighting *)
Lemma weights_rom p (row : list (O * nat)) : weights_sane L p -> (forall d i, In (d, i) row -> distance d) ->
  forall w, In w (map (fun x => n_div x (n_sum (map (fun e => n_div one (m_pow L (fst e) p)) row))) (map (fun e => n_div one (m_pow L (fst e) p)) row)) -> rain_or_missing w.
Proof using S.
  intros HW HD w Hw. apply in_map_iff in Hw as (x & <- & Hx).
  assert (R : forall v, In v (map (fun e : O * nat => n_div one (m_pow L (fst e) p)) row) -> rain_or_missing v).
  { intros v Hv. apply in_map_iff in Hv as ([d i] & <- & He). apply not_negative_rom. apply HW. apply (HD d i He). }
  apply rom_share; auto.
  - apply rom_sum; auto. apply rom_zero.
  - apply sum_above; auto. apply rom_zero.
Qed.
Lemma rom_get (z : list O) i : (forall v, In v z -> rain_or_missing v) -> rain_or_missing (nget z i).
Proof using S.
  intros H. unfold nget. destruct (le_lt_dec (length z) i); [unfold get; rewrite nth_overflow by auto; apply rom_nan|apply H, get_In; auto].
Qed.
Lemma In_map2 {A B C} (f : A -> B -> C) l : forall m c, In c (map2 f l m) -> exists a b, In a l /\ In b m /\ c = f a b.
Proof using.
  induction l as [|a l IH]; intros [|b m] c H; try destruct H.
  - exists a, b. repeat split; auto; left; auto.
  - destruct (IH m c H) as (a' & b' & HA & HB & E). exists a', b'. repeat split; auto; right; auto.
Qed.
Lemma idw_rom (z : list O) p row : weights_sane L p -> (forall d i, In (d, i) row -> i < length z -> distance d) ->
  (forall v, In v z -> rain_or_missing v) -> rain_or_missing (idw_one L z p row).
Proof using S.
  intros HW HD HZ. unfold idw_one. set (r := filter (fun e => Nat.ltb (snd e) (length z)) row). cbv zeta.
  assert (HR : forall d i, In (d, i) r -> distance d).
  { intros d i H. apply filter_In in H as [H1 H2]. apply Nat.ltb_lt in H2. eapply HD; eauto. }
  destruct r as [|[d0 i0] r'] eqn:E; [apply rom_nan|]. destruct (n_ltb d0 (n_lit 1 10)); [apply rom_get; auto|]. rewrite <- E in *.
  apply rom_sum; [apply rom_zero|]. intros v Hv. apply In_map2 in Hv as (w & x & Hw & Hx & ->). apply rom_mul.
  - apply (weights_rom p r); auto.
  - apply in_map_iff in Hx as (e & <- & _). apply rom_get; auto.
Qed.

(** monotone in the values *)
Lemma weakly_mul (w x y : O) : rain_or_missing w -> weakly x y -> weakly (n_mul w x) (n_mul w y).
Proof using S.
  rewrite rom_x. intros H K. apply (weakly_x S) in K. apply (weakly_x S). rewrite !(val_mul _ S). apply xweakly_rnd.
  unfold xrom, xweakly in *. destruct (val S w) as [| |a|], (val S x) as [| |b|], (val S y) as [| |c|]; cbn in *; auto;
  destruct H as [H|H]; try discriminate H; destruct K as [K|[K|K]]; try discriminate K;
  try (destruct (Rle_bool_spec 0 a); try discriminate); try (destruct (Rle_bool_spec b c); try discriminate);
  repeat (match goal with |- context [Rcompare ?a ?b] => destruct (Rcompare_spec a b); cbn | |- context [Rlt_bool ?a ?b] => destruct (Rlt_bool_spec a b) | |- context [Req_bool ?a ?b] => destruct (Req_bool_spec a b) end); cbn; auto; try lra.
  left. apply Rle_bool_true. nra.
Qed.
Lemma weakly_get (z z' : list O) i : length z' = length z -> (forall j, j < length z -> weakly (nget z j) (nget z' j)) -> weakly (nget z i) (nget z' i).
Proof using S.
  intros HL H. destruct (le_lt_dec (length z) i); [|auto]. right. left. unfold nget, get. rewrite nth_overflow by auto. apply (isnan_nan S).
Qed.
Lemma idw_mono (z z' : list O) p row : weights_sane L p -> (forall d i, In (d, i) row -> i < length z -> distance d) ->
  length z' = length z -> (forall j, j < length z -> weakly (nget z j) (nget z' j)) -> weakly (idw_one L z p row) (idw_one L z' p row).
Proof using S.
  intros HW HD HL HZ. unfold idw_one. rewrite HL. set (r := filter (fun e => Nat.ltb (snd e) (length z)) row). cbv zeta.
  assert (HR : forall d i, In (d, i) r -> distance d).
  { intros d i H. apply filter_In in H as [H1 H2]. apply Nat.ltb_lt in H2. eapply HD; eauto. }
  assert (NN : weakly (n_nan : O) n_nan) by (right; left; apply (isnan_nan S)).
  destruct r as [|[d0 i0] r'] eqn:E; [exact NN|]. destruct (n_ltb d0 (n_lit 1 10)); [apply weakly_get; auto|]. rewrite <- E in *.
  set (W := map (fun x => n_div x (n_sum (map (fun e => n_div one (m_pow L (fst e) p)) r))) (map (fun e => n_div one (m_pow L (fst e) p)) r)).
  assert (LW : length W = length r) by (unfold W; rewrite !map_length; auto).
  unfold n_sum at 1 2. apply (weakly_fold S).
  - rewrite !map2_length by (rewrite map_length; auto). reflexivity.
  - rewrite map2_length by (rewrite map_length; auto). intros j Hj. unfold nget at 1 3.
    rewrite !get_map2 with (da := n_nan) (db := n_nan) by (rewrite ?map_length; lia).
    rewrite (get_map (fun e : O * nat => nget z (snd e)) (n_nan : O, 0)), (get_map (fun e : O * nat => nget z' (snd e)) (n_nan : O, 0)) by (rewrite LW in Hj; exact Hj). apply weakly_mul; [|apply weakly_get; auto].
    apply (weights_rom p r); auto. apply get_In. rewrite LW in Hj. fold W. rewrite LW. exact Hj.
  - left. apply (leb_refl S). apply (isnan_ofZ S). simpl; lia.
Qed.


(** ** the interpolator *)
Variable query : list (O * O) -> O * O -> nat -> O -> option O -> list (O * nat).
Lemma reshape_In {A} r c : forall (l : list A) row v, In row (reshape r c l) -> In v row -> In v l.
Proof using.
  induction r as [|r IH]; intros l row v H K; [destruct H|]. cbn [reshape] in H. rewrite <- (firstn_skipn c l). apply in_or_app.
  destruct H as [<-|H]; [left; auto|right; eapply IH; eauto].
Qed.
Lemma rom_cells c x y z rows cols xg yg zg : weights_sane L (cf_p c) -> distances_ok query ->
  (forall v, In v z -> rain_or_missing v) ->
  snd (interp_call L query (new_interp c) x y z rows cols xg yg) = Ok zg -> forall row v, In row zg -> In v row -> rain_or_missing v.
Proof using S.
  intros HW HQ HZ. unfold interp_call.
  destruct (Nat.eqb_spec (length x) (length y)) as [E1|]; [|cbn; discriminate].
  destruct (Nat.eqb_spec (length y) (length z)) as [E2|]; [|cbn; discriminate]. cbn [andb negb].
  destruct (forallb n_isnan z).
  { cbn [snd]. intros H; injection H as <-. intros row v Hr Hv. apply repeat_spec in Hr. subst row. apply repeat_spec in Hv. subst v. apply rom_nan. }
  unfold interpol_func. cbn [new_interp conf built]. cbv zeta.
  set (sel := fun l : list O => if cf_exclude_nan c then mask_select n_nan (map (fun v => negb (n_isnan v)) z) l else l).
  change (if cf_exclude_nan c then mask_select n_nan (map (fun v => negb (n_isnan v)) z) x else x) with (sel x).
  change (if cf_exclude_nan c then mask_select n_nan (map (fun v => negb (n_isnan v)) z) y else y) with (sel y).
  change (if cf_exclude_nan c then mask_select n_nan (map (fun v => negb (n_isnan v)) z) z else z) with (sel z).
  assert (SZ : forall v, In v (sel z) -> rain_or_missing v).
  { unfold sel. destruct (cf_exclude_nan c); auto. intros v Hv. rewrite mask_select_present in Hv by auto. unfold present in Hv.
    apply in_map_iff in Hv as ([a b] & <- & Hv). apply filter_In in Hv as [Hv _]. apply in_combine_l in Hv. auto. }
  unfold new_tree. destruct (combine (sel x) (sel y)) as [|q0 X] eqn:EX; [cbn; discriminate|].
  destruct (forallb finite_pt (q0 :: X)); [|cbn; discriminate]. cbn [bind]. unfold tree_call. cbn [pts cache].
  destruct (Nat.eqb_spec (length (q0 :: X)) (length (sel z))) as [EL|]; [|cbn; discriminate]. cbn [negb].
  destruct (Nat.leb (cf_nnear c) 1); [cbn; discriminate|].
  destruct (combine (List.concat xg) (List.concat yg)) as [|p0 Q]; [cbn; discriminate|].
  destruct (forallb finite_pt (p0 :: Q)); [|cbn; discriminate]. cbn [snd]. unfold bind.
  set (rs := map (fun x0 => query (q0 :: X) x0 (cf_nnear c) zero (cf_max_distance c)) (p0 :: Q)).
  destruct (Nat.eqb (length (numba_idw_loop L (sel z) (cf_p c) rs)) (rows * cols)); [|discriminate].
  intros H; injection H as <-. intros row v Hr Hv. apply (reshape_In _ _ _ _ _ Hr) in Hv. change (In v (map (idw_one L (sel z) (cf_p c)) rs)) in Hv.
  apply in_map_iff in Hv as (rw & <- & Hrw). unfold rs in Hrw. apply in_map_iff in Hrw as (pt & <- & _). apply idw_rom; auto.
  intros d i Hd Hi. eapply HQ; eauto. rewrite EL. exact Hi.
Qed.

(** the same for two sets of values *)
Lemma present_pairs (z z' : list O) : length z' = length z -> (forall j, j < length z -> n_isnan (nget z' j) = n_isnan (nget z j)) ->
  (forall a : list O, present z' a = present z a) /\ length (present z' z') = length (present z z) /\
  forall j, j < length (present z z) -> exists i, i < length z /\ nget (present z z) j = nget z i /\ nget (present z' z') j = nget z' i.
Proof using.
  revert z'. induction z as [|v z IH]; intros [|v' z'] E H; try discriminate.
  - split; [auto|]. split; auto. cbn. intros; lia.
  - injection E as E. destruct (IH z' E) as (A & B & C); [intros j Hj; apply (H (Datatypes.S j)); cbn; lia|].
    assert (H0 : n_isnan v' = n_isnan v) by (apply (H 0); cbn; lia).
    unfold present in *. cbn [combine filter fst snd]. rewrite H0. split; [|split].
    + intros [|a l]; [reflexivity|]. cbn [combine filter snd]. rewrite H0. destruct (n_isnan v); cbn [negb map fst]; rewrite A; reflexivity.
    + destruct (n_isnan v); cbn [negb map length fst]; auto.
    + destruct (n_isnan v); cbn [negb map length fst].
      * intros j Hj. destruct (C j Hj) as (i & Hi & Ci). exists (Datatypes.S i). split; [lia|]. exact Ci.
      * intros [|j] Hj; [exists 0; split; [lia|]; split; reflexivity|]. destruct (C j) as (i & Hi & Ci); [lia|]. exists (Datatypes.S i). split; [lia|]. exact Ci.
Qed.
Lemma reshape_same {A} (P : A -> A -> Prop) r c : forall l l', length l = length l' -> (forall d j, j < length l -> P (get d l j) (get d l' j)) ->
  forall (d : A) i j, i < r -> j < length (get [] (reshape r c l) i) -> P (get d (get [] (reshape r c l) i) j) (get d (get [] (reshape r c l') i) j).
Proof using.
  induction r as [|r IH]; intros l l' E H d i j Hi Hj; [lia|]. cbn [reshape] in *. destruct i as [|i].
  - unfold get at 2 4. cbn [nth]. unfold get at 1 in Hj. cbn [nth] in Hj. rewrite firstn_length in Hj. unfold get. rewrite !nth_firstn_lt by lia. apply (H d j). lia.
  - apply IH; auto; [rewrite !skipn_length; lia| |lia]. intros d' k Hk. rewrite skipn_length in Hk. unfold get. rewrite !nth_skipn_plus. apply (H d'). lia.
Qed.
Lemma cells_mono c x y z z' rows cols xg yg zg zg' : weights_sane L (cf_p c) -> distances_ok query ->
  length z' = length z -> (forall j, j < length z -> n_isnan (nget z' j) = n_isnan (nget z j) /\ weakly (nget z j) (nget z' j)) ->
  snd (interp_call L query (new_interp c) x y z rows cols xg yg) = Ok zg ->
  snd (interp_call L query (new_interp c) x y z' rows cols xg yg) = Ok zg' ->
  forall i j, i < rows -> j < cols -> weakly (get n_nan (get [] zg i) j) (get n_nan (get [] zg' i) j).
Proof using S.
  intros HW HQ EZ HZ. unfold interp_call. rewrite EZ.
  destruct (Nat.eqb_spec (length x) (length y)) as [E1|]; [|cbn; discriminate].
  destruct (Nat.eqb_spec (length y) (length z)) as [E2|]; [|cbn; discriminate]. cbn [andb negb].
  assert (NN : weakly (n_nan : O) n_nan) by (right; left; apply (isnan_nan S)).
  assert (FN : forallb n_isnan z' = forallb n_isnan z).
  { clear - EZ HZ. revert z' EZ HZ. induction z as [|v z IH]; intros [|v' z'] E H; try discriminate; auto. cbn [forallb]. injection E as E.
    rewrite (IH z' E) by (intros j Hj; apply (H (Datatypes.S j)); cbn; lia). destruct (H 0) as [K _]; [cbn; lia|]. change (n_isnan v' = n_isnan v) in K. rewrite K. reflexivity. }
  rewrite FN. destruct (forallb n_isnan z).
  { cbn [snd]. intros H K; injection H as <-. injection K as <-. intros i j Hi Hj. rewrite !get_repeat by auto. exact NN. }
  unfold interpol_func. cbn [new_interp conf built]. cbv zeta.
  destruct (present_pairs z z' EZ) as (PA & PL & PP); [intros j Hj; apply HZ; auto|].
  set (sel := fun l : list O => if cf_exclude_nan c then mask_select n_nan (map (fun v => negb (n_isnan v)) z) l else l).
  set (sel' := fun l : list O => if cf_exclude_nan c then mask_select n_nan (map (fun v => negb (n_isnan v)) z') l else l).
  change (if cf_exclude_nan c then mask_select n_nan (map (fun v => negb (n_isnan v)) z) x else x) with (sel x).
  change (if cf_exclude_nan c then mask_select n_nan (map (fun v => negb (n_isnan v)) z) y else y) with (sel y).
  change (if cf_exclude_nan c then mask_select n_nan (map (fun v => negb (n_isnan v)) z) z else z) with (sel z).
  change (if cf_exclude_nan c then mask_select n_nan (map (fun v => negb (n_isnan v)) z') x else x) with (sel' x).
  change (if cf_exclude_nan c then mask_select n_nan (map (fun v => negb (n_isnan v)) z') y else y) with (sel' y).
  change (if cf_exclude_nan c then mask_select n_nan (map (fun v => negb (n_isnan v)) z') z' else z') with (sel' z').
  assert (SX : sel' x = sel x) by (unfold sel, sel'; destruct (cf_exclude_nan c); auto; rewrite !mask_select_present by lia; apply PA).
  assert (SY : sel' y = sel y) by (unfold sel, sel'; destruct (cf_exclude_nan c); auto; rewrite !mask_select_present by lia; apply PA).
  assert (SL : length (sel' z') = length (sel z)) by (unfold sel, sel'; destruct (cf_exclude_nan c); auto; rewrite !mask_select_present by lia; exact PL).
  assert (SW : forall j, j < length (sel z) -> weakly (nget (sel z) j) (nget (sel' z') j)).
  { unfold sel, sel'. destruct (cf_exclude_nan c); [|intros j Hj; apply HZ; auto]. rewrite !mask_select_present by lia.
    intros j Hj. destruct (PP j Hj) as (i & Hi & -> & ->). apply HZ; auto. }
  rewrite SX, SY. clearbody sel sel'. clear SX SY.
  unfold new_tree. destruct (combine (sel x) (sel y)) as [|q0 X] eqn:EX; [cbn; discriminate|].
  destruct (forallb finite_pt (q0 :: X)); [|cbn; discriminate]. cbn [bind]. unfold tree_call. cbn [pts cache]. rewrite SL.
  destruct (Nat.eqb_spec (length (q0 :: X)) (length (sel z))) as [EL|]; [|cbn; discriminate]. cbn [negb].
  destruct (Nat.leb (cf_nnear c) 1); [cbn; discriminate|].
  destruct (combine (List.concat xg) (List.concat yg)) as [|p0 Q]; [cbn; discriminate|].
  destruct (forallb finite_pt (p0 :: Q)); [|cbn; discriminate]. cbn [snd]. unfold bind.
  set (rs := map (fun x0 => query (q0 :: X) x0 (cf_nnear c) zero (cf_max_distance c)) (p0 :: Q)).
  assert (LI : forall zz, length (numba_idw_loop L zz (cf_p c) rs) = length rs) by (intros; unfold numba_idw_loop; apply map_length).
  rewrite !LI. destruct (Nat.eqb_spec (length rs) (rows * cols)) as [ER|]; [|discriminate].
  intros H K; injection H as <-. injection K as <-. intros i j Hi Hj.
  set (l := numba_idw_loop L (sel z) (cf_p c) rs). set (l' := numba_idw_loop L (sel' z') (cf_p c) rs).
  assert (Ll : length l = length rs) by apply LI. assert (Ll' : length l' = length rs) by apply LI.
  assert (G : forall d k, k < length l -> weakly (get d l k) (get d l' k)).
  { intros d k Hk. rewrite Ll in Hk. change l with (map (idw_one L (sel z) (cf_p c)) rs). change l' with (map (idw_one L (sel' z') (cf_p c)) rs).
    rewrite (get_map (idw_one L (sel z) (cf_p c)) []), (get_map (idw_one L (sel' z') (cf_p c)) []) by exact Hk. apply idw_mono; auto.
    intros d' i' Hd Hi'. pose proof (get_In [] rs k Hk) as HI. unfold rs in HI at 2. apply in_map_iff in HI as (pt & E & _). rewrite <- E in Hd.
    eapply HQ; eauto. rewrite EL. exact Hi'. }
  change (weakly (get n_nan (get [] (reshape rows cols l) i) j) (get n_nan (get [] (reshape rows cols l') i) j)).
  clearbody l l'. apply (reshape_same weakly); auto; [congruence|].
  destruct (reshape_get (n_nan : O) rows cols l i j) as [-> _]; auto. congruence.
Qed.
End Gen.
