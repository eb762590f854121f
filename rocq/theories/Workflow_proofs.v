(** * From raw levels to rain rate: gaps, windows, the last steps *)
From Coq Require Import List ZArith Bool Reals Lia Lra.
From Verif Require Import Base Num NumList Libm Baseline_model Baseline_spec Baseline_proofs Schleiss_model Schleiss_spec Schleiss_proofs
  KR_model KR_spec KR_proofs Chain_model Chain_spec Chain_proofs Workflow_model Workflow_spec.
Import ListNotations.
Local Open Scope nat_scope.
Local Notation length := List.length.

(** ** searching *)
Lemma find_before (f : nat -> bool) t i : find f (rev (seq 0 t)) = Some i ->
  i < t /\ f i = true /\ forall k, i < k < t -> f k = false.
Proof.
  induction t as [|t IH]; [discriminate|]. rewrite seq_S, rev_app_distr. cbn [rev app find Nat.add].
  destruct (f t) eqn:E.
  - intros H; injection H as <-. repeat split; auto. lia.
  - intros H. destruct (IH H) as (A & B & C). repeat split; auto. intros k Hk. destruct (Nat.eq_dec k t) as [->|]; auto. apply C; lia.
Qed.
Lemma find_before_ex (f : nat -> bool) t i : i < t -> f i = true -> (forall k, i < k < t -> f k = false) -> find f (rev (seq 0 t)) = Some i.
Proof.
  intros H1 H2 H3. destruct (find f (rev (seq 0 t))) as [j|] eqn:E.
  - destruct (find_before _ _ _ E) as (A & B & C). f_equal. destruct (lt_eq_lt_dec i j) as [[K|K]|K]; auto.
    + rewrite H3 in B by lia. discriminate.
    + rewrite C in H2 by lia. discriminate.
  - exfalso. apply find_none with (x := i) in E; [congruence|]. apply -> in_rev. apply in_seq. lia.
Qed.
Lemma find_after (f : nat -> bool) m : forall a j, find f (seq a m) = Some j ->
  a <= j < a + m /\ f j = true /\ forall k, a <= k < j -> f k = false.
Proof.
  induction m as [|m IH]; intros a j; [discriminate|]. cbn [seq find]. destruct (f a) eqn:E.
  - intros H; injection H as <-. repeat split; auto; lia.
  - intros H. destruct (IH _ _ H) as (A & B & C). repeat split; auto; try lia.
    intros k Hk. destruct (Nat.eq_dec k a) as [->|]; auto. apply C; lia.
Qed.
Lemma find_after_ex (f : nat -> bool) a m j : a <= j < a + m -> f j = true -> (forall k, a <= k < j -> f k = false) -> find f (seq a m) = Some j.
Proof.
  intros H1 H2 H3. destruct (find f (seq a m)) as [i|] eqn:E.
  - destruct (find_after _ _ _ _ E) as (A & B & C). f_equal. destruct (lt_eq_lt_dec i j) as [[K|K]|K]; auto.
    + rewrite H3 in B by lia. discriminate.
    + rewrite C in H2 by lia. discriminate.
  - exfalso. apply find_none with (x := j) in E; [congruence|]. apply in_seq. lia.
Qed.

Section Gen.
Context {O : numops} (S : numsem O) (L : libm O).
Variable cubic : list O -> list O -> O -> O.
Variable std : list O -> O.
Notation "l .[ i ]" := (get (n_nan : O) l i) (at level 2, left associativity, format "l .[ i ]").
Notation workflow := (workflow L cubic std).
Notation wet_flags := (wet_flags std).

(** ** the total loss *)
Lemma tl_length ft fr (tsl rsl : list O) : length rsl = length tsl -> length (total_loss ft fr tsl rsl) = length tsl.
Proof using. intros H. unfold total_loss, where_not. rewrite map2_length; rewrite !map_length; auto. Qed.
Lemma tl_get ft fr (tsl rsl : list O) t : length rsl = length tsl -> t < length tsl ->
  (total_loss ft fr tsl rsl).[t] = n_sub (if n_eqb tsl.[t] ft then n_nan else tsl.[t]) (if n_eqb rsl.[t] fr then n_nan else rsl.[t]).
Proof using.
  intros H Ht. unfold total_loss, where_not. rewrite get_map2 with (da := n_nan) (db := n_nan) by (rewrite !map_length; lia).
  rewrite !get_map with (d := n_nan) by lia. reflexivity.
Qed.
Lemma sub_nan2 (a b : O) : n_isnan b = true -> n_isnan (n_sub a b) = true.
Proof using S. rewrite !(val_isnan _ S), (val_sub _ S), (rnd_nan _ S). destruct (val S a), (val S b); cbn; auto; discriminate. Qed.
Lemma sub_ok (a b : O) : finite a -> finite b -> n_isnan (n_sub a b) = false.
Proof using S.
  unfold finite. rewrite !(val_isnan _ S), !(val_isinf _ S), (val_sub _ S), (rnd_nan _ S). intros [A B] [C D].
  destruct (val S a); try discriminate. destruct (val S b); try discriminate. reflexivity.
Qed.
Lemma nan_nan : n_isnan (n_nan : O) = true.
Proof using S. apply (isnan_nan S). Qed.
Lemma tl_valid ft fr (tsl rsl : list O) t : length rsl = length tsl -> t < length tsl ->
  n_isinf tsl.[t] = false -> n_isinf rsl.[t] = false ->
  (n_isnan (total_loss ft fr tsl rsl).[t] = false <-> measured ft fr tsl rsl t).
Proof using S.
  intros H Ht I1 I2. rewrite tl_get by auto. unfold measured. split.
  - intros K. destruct (n_eqb tsl.[t] ft); [rewrite (sub_nan_l S) in K by apply nan_nan; discriminate|].
    destruct (n_eqb rsl.[t] fr); [rewrite sub_nan2 in K by apply nan_nan; discriminate|].
    destruct (n_isnan tsl.[t]) eqn:E1; [rewrite (sub_nan_l S) in K by auto; discriminate|].
    destruct (n_isnan rsl.[t]) eqn:E2; [rewrite sub_nan2 in K by auto; discriminate|]. auto.
  - intros (A & B & C & D). rewrite C, D. apply sub_ok; split; auto.
Qed.

(** ** interpolation *)
Lemma ina_length x mg (l : list O) : length (interpolate_na x mg l) = length l.
Proof using. unfold interpolate_na. rewrite map_length, seq_length. auto. Qed.
Lemma ina_get x mg (l : list O) t : t < length l -> (interpolate_na x mg l).[t] =
    if n_isnan (nget l t) then
      match last_valid_before l t, first_valid_after l t with
      | Some i, Some j =>
          if n_leb (n_sub (nget x j) (nget x i)) mg
          then n_add (n_mul (n_div (n_sub (nget l j) (nget l i)) (n_sub (nget x j) (nget x i))) (n_sub (nget x t) (nget x i))) (nget l i)
          else n_nan
      | _, _ => n_nan
      end
    else nget l t.
Proof using.
  intros H. unfold interpolate_na. rewrite get_map with (d := 0) by (rewrite seq_length; auto).
  assert (get 0 (seq 0 (length l)) t = t) as E by (unfold get; rewrite seq_nth; auto). rewrite E. reflexivity.
Qed.
Definition valid (l : list O) (k : nat) : Prop := n_isnan l.[k] = false.
Lemma ina_valid x mg (l : list O) t : t < length l -> valid l t -> (interpolate_na x mg l).[t] = l.[t].
Proof using. intros H V. rewrite ina_get by auto. unfold nget. rewrite V. reflexivity. Qed.
Lemma ina_filled x mg (l : list O) t : t < length l -> ~ valid l t -> valid (interpolate_na x mg l) t ->
  exists i j, in_gap (valid l) (length l) i t j /\ short x mg i j.
Proof using S.
  intros H V. unfold valid at 1. rewrite ina_get by auto. unfold valid in V. apply not_false_is_true in V. unfold nget at 1. rewrite V.
  destruct (last_valid_before l t) as [i|] eqn:E1; [|rewrite nan_nan; discriminate].
  destruct (first_valid_after l t) as [j|] eqn:E2; [|rewrite nan_nan; discriminate].
  destruct (n_leb (n_sub (nget x j) (nget x i)) mg) eqn:E3; [|rewrite nan_nan; discriminate]. intros _.
  exists i, j. split; [|exact E3].
  apply find_before in E1 as (A & B & C). apply find_after in E2 as (A' & B' & C').
  apply negb_true_iff in B. apply negb_true_iff in B'. unfold in_gap, valid. repeat split; auto; try lia.
  intros k Hk. destruct (lt_eq_lt_dec k t) as [[K|K]|K].
  - specialize (C k ltac:(lia)). apply negb_false_iff in C. unfold nget in C. congruence.
  - subst k. congruence.
  - specialize (C' k ltac:(lia)). apply negb_false_iff in C'. unfold nget in C'. congruence.
Qed.
Lemma ina_gap x mg (l : list O) i t j : in_gap (valid l) (length l) i t j -> short x mg i j ->
  (interpolate_na x mg l).[t] = n_add (n_mul (n_div (n_sub l.[j] l.[i]) (n_sub x.[j] x.[i])) (n_sub x.[t] x.[i])) l.[i].
Proof using.
  intros (A & B & C & D & E) H. rewrite ina_get by lia.
  assert (V : forall k, i < k < j -> n_isnan (nget l k) = true) by (intros k Hk; apply not_false_is_true, (E k Hk)).
  rewrite (V t) by lia.
  unfold last_valid_before. rewrite (find_before_ex _ t i); [|lia|apply negb_true_iff; exact C|intros k Hk; apply negb_false_iff, V; lia].
  unfold first_valid_after. rewrite (find_after_ex _ (t + 1) _ j); [|lia|apply negb_true_iff; exact D|intros k Hk; apply negb_false_iff, V; lia].
  unfold short in H. unfold nget. rewrite H. reflexivity.
Qed.

(** ** the flags *)
Lemma wf_length w th (l : list O) : length (wet_flags w th l) = length l.
Proof using. unfold Workflow_model.wet_flags. rewrite map_length, seq_length. auto. Qed.
Lemma wf_get w th (l : list O) t : t < length l -> (wet_flags w th l).[t] = if n_ltb th (rolling_std std w l t) then one else zero.
Proof using.
  intros H. unfold Workflow_model.wet_flags. rewrite get_map with (d := 0) by (rewrite seq_length; auto).
  assert (get 0 (seq 0 (length l)) t = t) as E by (unfold get; rewrite seq_nth; auto). rewrite E. reflexivity.
Qed.
Lemma one_wet : n_eqb (one : O) (n_ofZ 0) = false.
Proof using S. rewrite (val_eqb _ S). unfold one. rewrite !(val_ofZ _ S) by (simpl; lia). apply Raux.Req_bool_false. lra. Qed.
Lemma zero_dry : n_eqb (zero : O) (n_ofZ 0) = true.
Proof using S. rewrite (val_eqb _ S). unfold zero. rewrite !(val_ofZ _ S) by (simpl; lia). apply Raux.Req_bool_true. reflexivity. Qed.
Lemma wf_wet w th (l : list O) t : t < length l -> flagged_wet (wet_flags w th l) t ->
  forall k, in_window w t k -> k < length l /\ n_isnan l.[k] = false.
Proof using S.
  intros Ht. unfold flagged_wet. rewrite wf_get by auto. destruct (n_ltb th (rolling_std std w l t)) eqn:E; [|rewrite zero_dry; discriminate].
  intros _ k [K1 K2]. unfold rolling_std in E.
  destruct (Nat.leb (w / 2) t) eqn:A; [|cbn in E; rewrite (ltb_nan_r S) in E by apply nan_nan; discriminate].
  destruct (Nat.leb (t - w / 2 + w) (length l)) eqn:B; [|cbn in E; rewrite (ltb_nan_r S) in E by apply nan_nan; discriminate].
  apply Nat.leb_le in A, B. cbn [andb] in E. cbv zeta in E.
  destruct (existsb n_isnan (slice (t - w / 2) (t - w / 2 + w) l)) eqn:X; [rewrite (ltb_nan_r S) in E by apply nan_nan; discriminate|].
  split; [lia|]. destruct (n_isnan l.[k]) eqn:N; auto. exfalso. apply not_true_iff_false in X. apply X. apply existsb_exists.
  exists l.[k]. split; auto. replace (l.[k]) with (slice (t - w / 2) (t - w / 2 + w) l).[k - (t - w / 2)].
  - apply get_In. rewrite slice_length by lia. lia.
  - rewrite get_slice by lia. f_equal. lia.
Qed.
Lemma wf_same w th (l1 l2 : list O) t : t < length l1 -> t < length l2 -> t + w <= length l1 + w / 2 -> t + w <= length l2 + w / 2 ->
  (forall k, in_window w t k -> l1.[k] = l2.[k]) -> (wet_flags w th l1).[t] = (wet_flags w th l2).[t].
Proof using.
  intros H1 H2 H3 H4 H. rewrite !wf_get by auto. f_equal. replace (rolling_std std w l1 t) with (rolling_std std w l2 t); auto. unfold rolling_std.
  destruct (Nat.leb (w / 2) t) eqn:A; auto. apply Nat.leb_le in A.
  assert (w / 2 <= w) by (apply Nat.div_le_upper_bound; lia).
  rewrite !(proj2 (Nat.leb_le _ _)) by lia. cbn [andb].
  replace (slice (t - w / 2) (t - w / 2 + w) l2) with (slice (t - w / 2) (t - w / 2 + w) l1); auto.
  apply get_ext with (d := n_nan); [rewrite !slice_length by lia; lia|]. rewrite slice_length by lia. intros i Hi. rewrite !get_slice by lia. apply H. split; lia.
Qed.

(** ** the prepared loss *)
Section Record_.
Variables (p : raw_par O) (x tsl rsl : list O).
Hypotheses (HL : length rsl = length tsl)
  (HI : forall t, t < length tsl -> n_isinf tsl.[t] = false /\ n_isinf rsl.[t] = false).
Notation loss := (prepared p x tsl rsl).
Notation tl := (total_loss (rp_fill_t p) (rp_fill_r p) tsl rsl).
Notation meas := (measured (rp_fill_t p) (rp_fill_r p) tsl rsl).
Lemma loss_length : length loss = length tsl.
Proof using HL. unfold prepared. rewrite ina_length, tl_length; auto. Qed.
Lemma valid_meas t : t < length tsl -> valid tl t <-> meas t.
Proof using S HL HI. intros H. apply tl_valid; auto; apply HI; auto. Qed.
Lemma gap_meas i t j : in_gap (valid tl) (length tl) i t j <-> in_gap meas (length tsl) i t j.
Proof using S HL HI.
  unfold in_gap. rewrite tl_length by auto. split; intros (A & B & C & D & E).
  - split; [auto|split; [auto|]]. rewrite <- !valid_meas by lia. split; [auto|split; [auto|]]. intros k Hk. rewrite <- valid_meas by lia. auto.
  - split; [auto|split; [auto|]]. rewrite !valid_meas by lia. split; [auto|split; [auto|]]. intros k Hk. rewrite valid_meas by lia. auto.
Qed.
Lemma loss_measured t : t < length tsl -> meas t -> loss.[t] = n_sub tsl.[t] rsl.[t].
Proof using S HL HI.
  intros H M. unfold prepared. rewrite ina_valid by (rewrite ?tl_length, ?valid_meas; auto).
  destruct M as (A & B & C & D). rewrite tl_get by auto. rewrite C, D. reflexivity.
Qed.
Lemma loss_meas_ok t : t < length tsl -> meas t -> n_isnan loss.[t] = false.
Proof using S HL HI.
  intros H M. unfold prepared. rewrite ina_valid by (rewrite ?tl_length, ?valid_meas; auto). apply valid_meas; auto.
Qed.
Lemma loss_filled t : t < length tsl -> ~ meas t -> n_isnan loss.[t] = false ->
  exists i j, in_gap meas (length tsl) i t j /\ short x (rp_max_gap p) i j.
Proof using S HL HI.
  intros H M K. destruct (ina_filled x (rp_max_gap p) tl t) as (i & j & G & E); [rewrite tl_length; auto|rewrite valid_meas; auto|exact K|].
  exists i, j. split; auto. apply gap_meas; auto.
Qed.
Lemma meas_dec t : t < length tsl -> meas t \/ ~ meas t.
Proof using S HL HI.
  intros H. rewrite <- valid_meas by auto. unfold valid. destruct (n_isnan tl.[t]); [right; discriminate|left; auto].
Qed.


(** ** theorems about one record *)
Notation run := (workflow p x tsl rsl).
Notation flags := (wet_flags (rp_window p) (rp_threshold p) loss).
Notation bridged := (bridged (rp_fill_t p) (rp_fill_r p) x (rp_max_gap p) tsl rsl).
Lemma valid_bridged k : k < length tsl -> n_isnan loss.[k] = false -> bridged k.
Proof using S HL HI. intros H N. destruct (meas_dec k H) as [M|M]; [left; auto|right; apply loss_filled; auto]. Qed.

Lemma workflow_total (sane : pow_sane L) n m dt tau (k : kr_args O) :
  plain_coefficients k -> 1 <= n -> n_eqb tau (n_ofZ 0) = false ->
  exists R, run n m dt tau k = Ok R /\ length R = length tsl /\
    forall t, t < length tsl -> (missing R.[t] \/ nonneg R.[t]) /\ (~ missing R.[t] -> bridged t).
Proof using S HL HI.
  intros Hk Hn Ht. destruct (chain_total S L cubic sane true loss flags n m dt tau k Hk Hn) as (R & E & LR & H).
  - apply wf_length.
  - congruence.
  - rewrite loss_length in *. exists R. split; [exact E|]. split; [exact LR|]. intros t Hlt. destruct (H t Hlt) as [A B].
    split; auto. intros Hm. apply valid_bridged; auto. destruct (n_isnan loss.[t]) eqn:N; auto. exfalso. apply Hm, A. exact N.
Qed.

Lemma workflow_window (sane : pow_sane L) (pz : pow_zero L) n m dt tau (k : kr_args O) R t :
  plain_coefficients k -> nonneg m -> n_eqb tau (n_ofZ 0) = false ->
  run n m dt tau k = Ok R -> t < length tsl -> n_isinf loss.[t] = false ->
  n_ltb (n_ofZ 0) R.[t] = true ->
  forall i, in_window (rp_window p) t i -> i < length tsl /\ bridged i.
Proof using S HL HI.
  intros Hk Hm Hta E Ht Hf HP.
  assert (Hn : 1 <= n).
  { unfold Workflow_model.workflow, chain in E. destruct (baseline_constant loss flags n) eqn:EB; [|discriminate].
    apply baseline_constant_ok in EB. tauto. }
  assert (NT : ~ missing R.[t]).
  { unfold missing. intros K. rewrite (ltb_nan_r S) in HP by auto. discriminate. }
  assert (NL : n_isnan loss.[t] = false).
  { destruct (chain_total S L cubic sane true loss flags n m dt tau k Hk Hn) as (R' & E' & _ & H); [apply wf_length|congruence|].
    unfold Workflow_model.workflow in E. rewrite E in E'. injection E' as <-. rewrite loss_length in H. destruct (H t Ht) as [A _].
    destruct (n_isnan loss.[t]) eqn:N; auto. exfalso. apply NT, A. exact N. }
  assert (W : flagged_wet flags t).
  { destruct (n_eqb flags.[t] (n_ofZ 0)) eqn:D; [|exact D]. exfalso.
    assert (K : n_eqb R.[t] (n_ofZ 0) = true).
    { apply (chain_dry_zero S L cubic pz true loss flags n m dt tau k R t); auto.
      - apply wf_length.
      - rewrite loss_length. auto.
      - unfold flagged_wet. congruence.
      - split; auto. }
    apply (eqb0_val S) in K. rewrite (val_ltb _ S), K, (val_0 S) in HP. revert HP. cbn. rewrite Raux.Rlt_bool_false by lra. discriminate. }
  intros i Hi. destruct (wf_wet (rp_window p) (rp_threshold p) loss t ltac:(rewrite loss_length; auto) W i Hi) as [A B].
  rewrite loss_length in A. split; auto. apply valid_bridged; auto.
Qed.
End Record_.
End Gen.
