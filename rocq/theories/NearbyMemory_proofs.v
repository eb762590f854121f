(** * Proofs about the memory of the nearby-link chain *)
From Coq Require Import List ZArith Bool Lia String.
From Verif Require Import Base Num NumList Libm KR_model KR_spec Stats_proofs NearbyRain_spec NearbyWetdry_model NearbyWetdry_spec NearbyWetdry_proofs
  NearbyChain_model NearbyChain_spec NearbyChain_proofs NearbyMemory_spec.
Import ListNotations.
Local Open Scope nat_scope.
Local Notation length := List.length.

Section Memory.
Context {O : numops} (S : numsem O) (L : libm O).
Variable cubic : list O -> list O -> O -> O.

Lemma map_shift {B} (f g : nat -> B) (s a n : nat) : (forall k, a <= k < a + n -> f (k + s) = g k) ->
  map f (seq (a + s) n) = map g (seq a n).
Proof.
  revert a. induction n as [|n IH]; intros a H; [reflexivity|]. simpl. f_equal; [apply H; lia|].
  apply (IH (Datatypes.S a)). intros k Hk. apply H. lia.
Qed.

Lemma filter_map_shift {B} (f g : nat -> B) (b c : nat -> bool) (s a n : nat) :
  (forall k, a <= k < a + n -> f (k + s) = g k) -> (forall k, a <= k < a + n -> b (k + s) = c k) ->
  map f (filter b (seq (a + s) n)) = map g (filter c (seq a n)).
Proof.
  revert a. induction n as [|n IH]; intros a H1 H2; [reflexivity|]. simpl. rewrite (H2 a) by lia.
  assert (E : map f (filter b (seq (Datatypes.S (a + s)) n)) = map g (filter c (seq (Datatypes.S a) n))).
  { apply (IH (Datatypes.S a)); intros k Hk; [apply H1|apply H2]; lia. }
  destruct (c a); simpl; [|exact E]. rewrite (H1 a) by lia. f_equal. exact E.
Qed.

Lemma recent_shift w s t (f g : nat -> O) : w <= t + 1 -> (forall k, t + 1 <= k + w -> k <= t -> f (k + s) = g k) ->
  recent w (t + s) f = recent w t g.
Proof.
  intros Hw H. unfold recent. f_equal. replace (t + s + 1 - w) with (t + 1 - w + s) by lia.
  replace (t + s + 1 - (t + 1 - w + s)) with (t + 1 - (t + 1 - w)) by lia. apply map_shift. intros k Hk. apply H; lia.
Qed.

Lemma drop_shift s e (pmin pmin' : list (list O)) w k i t : same_stretch s e pmin pmin' -> i < length pmin -> t < e -> w <= t + 1 ->
  drop pmin w k i (t + s) = drop pmin' w k i t.
Proof.
  intros [_ H] Hi Ht Hw. unfold drop. rewrite (H i t Hi Ht). rewrite (recent_shift w s t (cell pmin i) (cell pmin' i)); auto.
  intros j _ Hj. apply H; auto; lia.
Qed.

Lemma link_median_shift s (dP dX dP' dX' : nat -> nat -> O) nb ml t :
  (forall j, In j nb -> dP j (t + s) = dP' j t) -> (forall j, In j nb -> dX j (t + s) = dX' j t) ->
  link_median dP dX nb ml (t + s) = link_median dP' dX' nb ml t.
Proof.
  intros H1 H2. unfold link_median. rewrite (map_ext_in (fun j => dP j (t + s)) (fun j => dP' j t) nb H1).
  rewrite (map_ext_in (fun j => dX j (t + s)) (fun j => dX' j t) nb H2). reflexivity.
Qed.

(** [t] lies two steps before the end of the common stretch, or the stretch
    reaches to the end of both records *)
Definition inside (s e T T' t : nat) : Prop := t < e /\ (t + 2 < e \/ (T' = e /\ T = e + s)).

Lemma cls_shift s e T T' w thrP thrPL (mP mPL own mP' mPL' own' : nat -> O) t :
  e <= T' -> e + s <= T -> 1 <= w -> w <= t -> inside s e T T' t ->
  (forall u, w <= u + 1 -> u < e -> mP (u + s) = mP' u) -> (forall u, w <= u + 1 -> u < e -> mPL (u + s) = mPL' u) ->
  (forall u, w <= u + 1 -> u < e -> own (u + s) = own' u) ->
  cls T thrP thrPL mP mPL own (t + s) = cls T' thrP thrPL mP' mPL' own' t.
Proof.
  intros H' H Hw Ht [He HI] E1 E2 E3. unfold cls, strong, median_rule.
  replace (Nat.eqb (t + s) 0) with false by (symmetry; apply Nat.eqb_neq; lia).
  replace (Nat.eqb t 0) with false by (symmetry; apply Nat.eqb_neq; lia).
  rewrite (E1 t), (E2 t) by lia. destruct (n_isnan (mP' t) || n_isnan (mPL' t)); [reflexivity|].
  assert (EL : Nat.leb T (t + s + 2) = Nat.leb T' (t + 2)).
  { destruct (Nat.leb_spec T (t + s + 2)), (Nat.leb_spec T' (t + 2)); try reflexivity; exfalso; lia. }
  rewrite EL. destruct (Nat.leb_spec T' (t + 2)) as [HT|HT]; [reflexivity|]. assert (H2 : t + 2 < e) by lia.
  replace (t + s - 1) with (t - 1 + s) by lia. replace (t + s + 1) with (t + 1 + s) by lia. replace (t + s + 2) with (t + 2 + s) by lia.
  rewrite !E1, !E2, !E3 by lia. reflexivity.
Qed.

Lemma score_shift interval w s t (dPL mPL dPL' mPL' : nat -> O) : w <= t + 1 ->
  (forall u, t + 1 <= u + w -> u <= t -> dPL (u + s) = dPL' u) -> (forall u, t + 1 <= u + w -> u <= t -> mPL (u + s) = mPL' u) ->
  score interval w dPL mPL (t + s) = score interval w dPL' mPL' t.
Proof.
  intros Hw E1 E2. unfold score. cbv zeta.
  rewrite (recent_shift w s t (fun k => n_sub (dPL k) (mPL k)) (fun k => n_sub (dPL' k) (mPL' k))); auto.
  intros k H1 H2. cbv beta. rewrite E1, E2 by lia. reflexivity.
Qed.

Lemma wetdry_shift s e T T' (pmin pmin' : list (list O)) lens d radius thrP thrPL ml interval tp mh wet F wet' F' :
  call_ok T pmin lens d radius interval tp mh -> call_ok T' pmin' lens d radius interval tp mh ->
  e <= T' -> e + s <= T -> same_stretch s e pmin pmin' ->
  nearby_wetdry T pmin lens d radius thrP thrPL ml interval tp mh = Ok (wet, F) ->
  nearby_wetdry T' pmin' lens d radius thrP thrPL ml interval tp mh = Ok (wet', F') ->
  forall i, i < length pmin ->
    (forall t, tp * 60 / interval <= t -> inside s e T T' t -> cell wet i (t + s) = cell wet' i t) /\
    (forall t, tp * 60 / interval + tp * 4 - 2 <= t -> t < e -> cell F i (t + s) = cell F' i t).
Proof.
  intros C C' HT' HT SS E E' i Hi. destruct C, C'. pose proof SS as [LN _].
  destruct (nearby_wetdry_closed S T pmin lens d radius thrP thrPL ml interval tp mh) as (w1 & f1 & E1 & Lw & LF & G); auto.
  destruct (nearby_wetdry_closed S T' pmin' lens d radius thrP thrPL ml interval tp mh) as (w2 & f2 & E2 & Lw' & LF' & G'); auto.
  rewrite E in E1. injection E1 as <- <-. rewrite E' in E2. injection E2 as <- <-.
  destruct (G i Hi) as (_ & _ & N1 & N2). destruct (G' i ltac:(lia)) as (_ & _ & N1' & N2'). clear G G'.
  assert (TP : 1 <= tp). { destruct tp; [|lia]. simpl in ok_hours. rewrite Nat.div_0_l in ok_hours by auto. lia. }
  rewrite <- LN in N1', N2'. set (nb := neighbours d radius (length pmin) i) in *.
  set (per := tp * 60 / interval) in *. set (hr := mh * 60 / interval) in *.
  assert (INB : forall j, In j nb -> j < length pmin).
  { intros j Hj. unfold nb, neighbours in Hj. apply filter_In in Hj as [Hj _]. apply in_seq in Hj. lia. }
  assert (D : forall j u, j < length pmin -> per <= u + 1 -> u < e -> drop pmin per hr j (u + s) = drop pmin' per hr j u).
  { intros j u Hj Hp Hu. apply (drop_shift s e); auto. }
  destruct (Nat.le_gt_cases (length nb) ml) as [Hm|Hm].
  - specialize (N1 Hm). specialize (N1' Hm). split; intros t H1 H2; [destruct H2 as [H2 _]|];
      destruct (N1 (t + s) ltac:(lia)) as [A B], (N1' t ltac:(lia)) as [A' B']; congruence.
  - specialize (N2 Hm). specialize (N2' Hm). cbv zeta in N2, N2'.
    assert (M1 : forall u, per <= u + 1 -> u < e -> link_median (drop pmin per hr) (drop pmin per hr) nb ml (u + s) = link_median (drop pmin' per hr) (drop pmin' per hr) nb ml u).
    { intros u Hp Hu. apply link_median_shift; intros j Hj; apply D; auto. }
    assert (M2 : forall u, per <= u + 1 -> u < e -> link_median (drop pmin per hr) (fun j t => n_div (drop pmin per hr j t) (get n_nan lens j)) nb ml (u + s)
      = link_median (drop pmin' per hr) (fun j t => n_div (drop pmin' per hr j t) (get n_nan lens j)) nb ml u).
    { intros u Hp Hu. apply link_median_shift; intros j Hj; cbv beta; rewrite ?D; auto. }
    split; intros t H1 H2.
    + pose proof H2 as [H2' _]. destruct (N2 (t + s) ltac:(lia)) as [A _], (N2' t ltac:(lia)) as [A' _]. rewrite A, A'.
      apply (cls_shift s e T T' per); auto; try lia; intros; apply D; auto.
    + destruct (N2 (t + s) ltac:(lia)) as [_ B], (N2' t ltac:(lia)) as [_ B']. rewrite B, B'.
      apply score_shift; [lia| |]; intros u U1 U2; cbv beta; [rewrite D by (auto; lia); reflexivity|apply M2; lia].
Qed.

Lemma dry_levels_shift (pmin pmax wet pmin' pmax' wet' : list O) n s t : n <= t + 1 ->
  (forall k, t + 1 <= k + n -> k <= t -> get n_nan pmin (k + s) = get n_nan pmin' k) ->
  (forall k, t + 1 <= k + n -> k <= t -> get n_nan pmax (k + s) = get n_nan pmax' k) ->
  (forall k, t + 1 <= k + n -> k <= t -> get n_nan wet (k + s) = get n_nan wet' k) ->
  dry_levels pmin pmax wet n (t + s) = dry_levels pmin' pmax' wet' n t.
Proof.
  intros Hn E1 E2 E3. unfold dry_levels. replace (t + s + 1 - n) with (t + 1 - n + s) by lia.
  replace (t + s + 1 - (t + 1 - n + s)) with (t + 1 - (t + 1 - n)) by lia.
  apply filter_map_shift; intros k Hk; unfold level; rewrite ?E1, ?E2, ?E3 by lia; reflexivity.
Qed.

Lemma chain_shift p nw s e T T' (pmin pmax pmin' pmax' : list (list O)) R R' :
  record_ok p nw T pmin pmax -> record_ok p nw T' pmin' pmax' -> e <= T' -> e + s <= T ->
  same_stretch s e pmin pmin' -> same_stretch s e pmax pmax' ->
  nearby_chain L cubic p nw T pmin pmax = Ok R -> nearby_chain L cubic p nw T' pmin' pmax' = Ok R' ->
  forall i t, i < length pmin -> warm_rain p <= t -> inside s e T T' t -> cell R i (t + s) = cell R' i t.
Proof.
  intros C C' HT' HT S1 S2 E E' i t Hi Hw Ht.
  destruct (chain_parts S L cubic p nw T pmin pmax R C E) as (wet & F & EW & _ & G).
  destruct (chain_parts S L cubic p nw T' pmin' pmax' R' C' E') as (wet' & F' & EW' & _ & G').
  pose proof C as (CO & LX & _ & Hmp & Hn). pose proof C' as (CO' & _).
  destruct (wetdry_shift s e T T' pmin pmin' _ _ _ _ _ _ _ _ _ _ _ _ _ CO CO' HT' HT S1 EW EW' i Hi) as [AW AF].
  destruct S1 as [LN S1], S2 as [LN2 S2]. pose proof (ok_hours _ _ _ _ _ _ _ _ CO) as OH. pose proof Ht as [He HI].
  unfold warm_rain, warm_score, steps_of_period in Hw. 
  destruct (G i Hi) as (_ & _ & a & b & Eab & _ & GR). destruct (G' i ltac:(lia)) as (_ & _ & a' & b' & Eab' & _ & GR').
  rewrite Eab in Eab'. injection Eab' as <- <-. rewrite GR, GR' by lia.
  rewrite (AW t ltac:(lia) Ht), (AF t ltac:(lia) He), (S1 i t Hi ltac:(lia)), (S2 i t ltac:(lia) ltac:(lia)).
  assert (ER : ref p (get [] pmin i) (get [] pmax i) (get [] wet i) (t + s) = ref p (get [] pmin' i) (get [] pmax' i) (get [] wet' i) t).
  { unfold ref. cbv zeta. rewrite (dry_levels_shift (get [] pmin i) (get [] pmax i) (get [] wet i) (get [] pmin' i) (get [] pmax' i) (get [] wet' i)); [reflexivity|lia| | |]; intros k K1 K2.
    - apply (S1 i k); auto; lia.
    - apply (S2 i k); lia.
    - apply (AW k); [lia|]. split; [lia|]. destruct HI as [HI|HI]; [left; lia|right; exact HI]. }
  rewrite ER. reflexivity.
Qed.

(** ** the statements *)
Lemma memory_wetdry p nw s T T' (pmin pmax pmin' pmax' : list (list O)) wet F wet' F' :
  record_ok p nw T pmin pmax -> record_ok p nw T' pmin' pmax' -> late_start s T T' pmin pmin' ->
  nearby_wetdry T pmin (nw_len nw) (nw_dist nw) (np_radius p) (np_thr_P p) (np_thr_PL p) (np_min_links p) (np_interval p) (np_timeperiod p) (np_min_hours p) = Ok (wet, F) ->
  nearby_wetdry T' pmin' (nw_len nw) (nw_dist nw) (np_radius p) (np_thr_P p) (np_thr_PL p) (np_min_links p) (np_interval p) (np_timeperiod p) (np_min_hours p) = Ok (wet', F') ->
  forall i t, i < length pmin -> t < T' ->
    (warm_wet p <= t -> cell wet i (t + s) = cell wet' i t) /\ (warm_score p <= t -> cell F i (t + s) = cell F' i t).
Proof.
  intros [C _] [C' _] [HT S1] E E' i t Hi Ht.
  destruct (wetdry_shift s T' T T' pmin pmin' _ _ _ _ _ _ _ _ _ _ _ _ _ C C' (le_n T') ltac:(lia) S1 E E' i Hi) as [AW AF].
  split; intros Hw; [apply AW|apply AF]; auto. split; auto.
Qed.

Lemma memory_rain p nw s T T' (pmin pmax pmin' pmax' : list (list O)) R R' :
  record_ok p nw T pmin pmax -> record_ok p nw T' pmin' pmax' -> late_start s T T' pmin pmin' -> late_start s T T' pmax pmax' ->
  nearby_chain L cubic p nw T pmin pmax = Ok R -> nearby_chain L cubic p nw T' pmin' pmax' = Ok R' ->
  forall i t, i < length pmin -> t < T' -> warm_rain p <= t -> cell R i (t + s) = cell R' i t.
Proof.
  intros C C' [HT S1] [_ S2] E E' i t Hi Ht Hw.
  apply (chain_shift p nw s T' T T' pmin pmax pmin' pmax'); auto; try lia. split; auto.
Qed.

Lemma memory_piece p nw s e T T' (pmin pmax pmin' pmax' : list (list O)) R R' :
  record_ok p nw T pmin pmax -> record_ok p nw T' pmin' pmax' -> e <= T' -> e + s <= T ->
  same_stretch s e pmin pmin' -> same_stretch s e pmax pmax' ->
  nearby_chain L cubic p nw T pmin pmax = Ok R -> nearby_chain L cubic p nw T' pmin' pmax' = Ok R' ->
  forall i t, i < length pmin -> warm_rain p <= t -> t + 2 < e -> cell R i (t + s) = cell R' i t.
Proof. intros C C' HT' HT S1 S2 E E' i t Hi Hw Ht. apply (chain_shift p nw s e T T' pmin pmax pmin' pmax'); auto. split; [lia|auto]. Qed.
End Memory.
