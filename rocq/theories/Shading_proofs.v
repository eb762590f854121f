From Coq Require Import List ZArith Bool Lia Arith.
From Verif Require Import Base Num NumList Blackout_model Blackout_spec Blackout_proofs Baseline_spec Workflow_model Workflow_spec Workflow_proofs Shading_model Shading_spec.
Import ListNotations.
Local Open Scope nat_scope.

Lemma get_default {A} (d d' : A) l i : i < length l -> get d l i = get d' l i.
Proof. intros H. unfold get. apply nth_indep. auto. Qed.

Section Runs.
Variables (n : nat) (w : nat -> bool).
Definition st (i : nat) : bool := negb (w i) && w (S i) && (S i <? n).
Definition en (i : nat) : bool := match i with 0 => false | S j => w j && negb (w i) end.
Definition per (a b : nat) : Prop := a + 1 < b < n /\ w a = false /\ w b = false /\ forall i, a < i < b -> w i = true.
Definition Sk (k m : nat) := filter st (seq k m).
Definition Ek (k m : nat) := filter en (seq k m).
Lemma runs m : forall k, k + m + 1 = n -> w (n - 1) = false ->
  (w k = false -> length (Sk k (m + 1)) = length (Ek (S k) m) /\
     forall a b, In (a, b) (combine (Sk k (m + 1)) (Ek (S k) m)) <-> k <= a /\ per a b) /\
  (w k = true -> length (Ek (S k) m) = S (length (Sk k (m + 1))) /\
     forall s a b, In (a, b) (combine (s :: Sk k (m + 1)) (Ek (S k) m)) <->
       (a = s /\ k < b < n /\ w b = false /\ (forall i, k < i < b -> w i = true)) \/ (k <= a /\ per a b)).
Proof using.
  induction m as [|m IH]; intros k Hk HL.
  - assert (E : k = n - 1) by lia. rewrite <- E in HL. split; [|congruence]. intros _.
    assert (Z : Sk k (0 + 1) = []). { unfold Sk. cbn [Nat.add seq filter]. unfold st. destruct (Nat.ltb_spec (S k) n); [lia|]. rewrite andb_false_r. reflexivity. }
    rewrite Z. split; [reflexivity|]. intros a b. cbn. split; [intros []|]. intros [Ha ((H1 & H2) & _)]. lia.
  - destruct (IH (S k)) as [IH1 IH2]; [lia|auto|].
    assert (ES : Sk k (S m + 1) = (if negb (w k) && w (S k) then [k] else []) ++ Sk (S k) (m + 1)).
    { unfold Sk. replace (S m + 1) with (S (m + 1)) by lia. cbn [seq filter]. unfold st at 1.
      replace (S k <? n) with true by (symmetry; apply Nat.ltb_lt; lia). rewrite andb_true_r. destruct (negb (w k) && w (S k)); reflexivity. }
    assert (EE : Ek (S k) (S m) = (if w k && negb (w (S k)) then [S k] else []) ++ Ek (S (S k)) m).
    { unfold Ek. cbn [seq filter en]. destruct (w k && negb (w (S k))); reflexivity. }
    rewrite ES, EE. clear ES EE IH. destruct (w k) eqn:Wk, (w (S k)) eqn:Wk1; cbn [negb andb app]; split; try discriminate; intros _.
    + destruct (IH2 eq_refl) as [L H]. split; [exact L|]. intros s a b. rewrite H. split.
      * intros [(A & B & C & D)|(A & B)]; [left|right; split; [lia|auto]]. split; auto. split; [lia|]. split; auto.
        intros i Hi. destruct (Nat.eq_dec i (S k)) as [->|]; auto. apply D. lia.
      * intros [(A & B & C & D)|(A & B)].
        -- left. split; auto. assert (b <> S k) by congruence. split; [lia|]. split; auto. intros i Hi. apply D. lia.
        -- right. split; auto. assert (a <> k) by (destruct B as (_ & B & _); congruence). lia.
    + destruct (IH1 eq_refl) as [L H]. split; [cbn; f_equal; symmetry; exact L|]. intros s a b. cbn [combine In]. rewrite H. split.
      * intros [E|(A & B)]; [injection E as <- <-; left; split; auto; split; [lia|]; split; auto; intros; lia|right; split; [lia|auto]].
      * intros [(A & B & C & D)|(A & B)].
        -- left. subst. f_equal. destruct (Nat.eq_dec b (S k)); auto. exfalso. rewrite (D (S k)) in Wk1 by lia. discriminate.
        -- right. split; auto. assert (a <> k) by (destruct B as (_ & B & _); congruence). lia.
    + destruct (IH2 eq_refl) as [L H]. split; [cbn [length]; rewrite L; reflexivity|]. intros a b. rewrite H. split.
      * intros [(A & B & C & D)|(A & B)]; [|split; [lia|auto]]. subst. split; auto. split; [lia|]. split; auto. split; auto.
        intros i Hi. destruct (Nat.eq_dec i (S k)) as [->|]; auto. apply D. lia.
      * intros [A B]. destruct (Nat.eq_dec a k) as [->|]; [left|right; split; [lia|auto]]. destruct B as ((B1 & B2) & B3 & B4 & B5).
        split; auto. split; [split; [|auto]|]. { assert (b <> S k) by lia. lia. } split; auto. intros i Hi. apply B5. lia.
    + destruct (IH1 eq_refl) as [L H]. split; [exact L|]. intros a b. rewrite H. split; intros [A B]; split; try lia; auto.
      destruct (Nat.eq_dec a k) as [->|]; [|lia]. exfalso. destruct B as ((B1 & _) & _ & _ & B5). rewrite B5 in Wk1 by lia. discriminate.
Qed.
End Runs.

Lemma rolled_length s wet : length (rolled_and_dry s wet) = length wet.
Proof. unfold rolled_and_dry. rewrite map2_length; rewrite np_roll_length; auto. Qed.
Lemma rolled_get_m1 wet i : i < length wet -> get false (rolled_and_dry (-1) wet) i = get false wet (cyc_next (length wet) i) && negb (get false wet i).
Proof. intros H. unfold rolled_and_dry. rewrite get_map2 with (da := false) (db := false) by (rewrite ?np_roll_length; auto). rewrite np_roll_m1 by auto. reflexivity. Qed.
Lemma rolled_get_1 wet i : i < length wet -> get false (rolled_and_dry 1 wet) i = get false wet (cyc_prev (length wet) i) && negb (get false wet i).
Proof. intros H. unfold rolled_and_dry. rewrite get_map2 with (da := false) (db := false) by (rewrite ?np_roll_length; auto). rewrite np_roll_1 by auto. reflexivity. Qed.

(** any pair of marker lists that agree with the starts and ends of one record *)
Lemma shaded_markers wet (s e : list bool) : dry_ends wet -> length s = length wet -> length e = length wet ->
  (forall i, i < length wet -> get false s i = st (length wet) (fun i => get false wet i) i) ->
  (forall i, i < length wet -> get false e i = en (fun i => get false wet i) i) ->
  length (nonzero s) = length (nonzero e) /\ forall a b, In (a, b) (combine (nonzero s) (nonzero e)) <-> wet_period wet a b.
Proof.
  intros D Ls Le Hs He. destruct (length wet) as [|m] eqn:L.
  - destruct s; [|discriminate]. destruct e; [|discriminate]. cbn. split; auto. intros a b. split; [intros []|]. intros ((_ & H) & _). rewrite L in H. lia.
  - assert (N : wet <> []) by (intros ->; discriminate). destruct (D N) as [D0 D1]. rewrite L in D1.
    set (w := fun i => get false wet i) in *. assert (W0 : w 0 = false) by (unfold w; rewrite (get_default false true) by lia; auto).
    assert (W1 : w (S m - 1) = false) by (unfold w; rewrite (get_default false true) by lia; auto).
    destruct (runs (S m) w m 0 ltac:(lia) W1) as [R _]. destruct (R W0) as [RL RI].
    assert (ES : nonzero s = Sk (S m) w 0 (m + 1)).
    { unfold nonzero, Sk. rewrite Ls. replace (m + 1) with (S m) by lia. apply filter_ext_in. intros i Hi. apply in_seq in Hi. apply Hs. lia. }
    assert (EE : nonzero e = Ek w 1 m).
    { unfold nonzero, Ek. rewrite Le. cbn [seq filter]. rewrite He by lia. cbn [en]. apply filter_ext_in. intros i Hi. apply in_seq in Hi. apply He. lia. }
    rewrite ES, EE. split; [exact RL|]. intros a b. rewrite RI. unfold per, wet_period. rewrite L. unfold w. split.
    + intros (_ & (A1 & A2) & B & C & E). rewrite !(get_default true false) by lia. auto.
    + intros ((A1 & A2) & B & C & E). rewrite !(get_default false true) by lia. split; [lia|]. split; [lia|]. auto.
Qed.
Lemma shaded_periods wet : dry_ends wet ->
  length (nonzero (rolled_and_dry (-1) wet)) = length (nonzero (rolled_and_dry 1 wet)) /\
  forall a b, In (a, b) (shaded wet) <-> wet_period wet a b.
Proof.
  intros D. apply shaded_markers; auto using rolled_length.
  - intros i Hi. rewrite rolled_get_m1 by auto. unfold st, cyc_next. destruct (Nat.eqb_spec (i + 1) (length wet)) as [E|NE].
    + destruct (Nat.ltb_spec (S i) (length wet)); [lia|]. rewrite andb_false_r. destruct D as [D0 _]; [intros ->; cbn in Hi; lia|].
      rewrite (get_default false true) by lia. rewrite D0. reflexivity.
    + replace (S i <? length wet) with true by (symmetry; apply Nat.ltb_lt; lia). replace (i + 1) with (S i) by lia. rewrite andb_true_r. apply andb_comm.
  - intros i Hi. rewrite rolled_get_1 by auto. unfold en, cyc_prev. destruct i; auto. destruct D as [_ D1]; [intros ->; cbn in Hi; lia|].
    rewrite (get_default false true) by lia. rewrite D1. reflexivity.
Qed.
Lemma clear_ends_length wet : length (clear_ends wet) = length wet.
Proof. unfold clear_ends. rewrite !upd_length. auto. Qed.
Lemma clear_ends_get wet i : i < length wet -> get false (clear_ends wet) i = get false wet i && negb (Nat.eqb i 0) && negb (Nat.eqb i (length wet - 1)).
Proof.
  intros H. unfold clear_ends. destruct (Nat.eqb_spec i 0) as [->|N0].
  - rewrite get_upd_eq by (rewrite upd_length; auto). cbn. rewrite andb_false_r. auto.
  - rewrite get_upd_neq by auto. destruct (Nat.eqb_spec i (length wet - 1)) as [->|N1].
    + rewrite get_upd_eq by auto. cbn. rewrite andb_false_r. auto.
    + rewrite get_upd_neq by auto. cbn. rewrite !andb_true_r. auto.
Qed.
Lemma clear_ends_dry wet : dry_ends (clear_ends wet).
Proof.
  intros N. assert (P : 0 < length wet) by (rewrite <- clear_ends_length; destruct (clear_ends wet); [congruence|cbn; lia]).
  rewrite clear_ends_length. rewrite !(get_default true false) by (rewrite clear_ends_length; lia). rewrite !clear_ends_get by lia.
  rewrite !Nat.eqb_refl. cbn. rewrite !andb_false_r. auto.
Qed.

(** ** every wet step is in a shaded area *)
Lemma dry_before (w : nat -> bool) i : w 0 = false -> w i = true -> exists a, a < i /\ w a = false /\ forall j, a < j <= i -> w j = true.
Proof.
  intros W0. induction i as [|i IH]; intros W; [congruence|]. destruct (w i) eqn:E.
  - destruct IH as (a & A & B & C); auto. exists a. split; [lia|]. split; auto. intros j Hj. destruct (Nat.eq_dec j (S i)) as [->|]; auto. apply C. lia.
  - exists i. split; [lia|]. split; auto. intros j Hj. replace j with (S i) by lia. auto.
Qed.
Lemma dry_after (w : nat -> bool) m i : w (i + m) = false -> w i = true -> exists b, i < b <= i + m /\ w b = false /\ forall j, i <= j < b -> w j = true.
Proof.
  revert i. induction m as [|m IH]; intros i WN W; [replace (i + 0) with i in WN by lia; congruence|]. destruct (w (S i)) eqn:E.
  - destruct (IH (S i)) as (b & A & B & C); auto. { replace (S i + m) with (i + S m) by lia. auto. }
    exists b. split; [lia|]. split; auto. intros j Hj. destruct (Nat.eq_dec j i) as [->|]; auto. apply C. lia.
  - exists (S i). split; [lia|]. split; auto. intros j Hj. replace j with i by lia. auto.
Qed.
Lemma wet_in_period wet i : dry_ends wet -> i < length wet -> get false wet i = true <-> exists a b, wet_period wet a b /\ a < i < b.
Proof.
  intros D Hi. assert (N : wet <> []) by (intros ->; cbn in Hi; lia). destruct (D N) as [D0 D1].
  rewrite !(get_default true false) in D0, D1 by lia. split.
  - intros W. destruct (dry_before (fun i => get false wet i) i) as (a & A & B & C); auto.
    destruct (dry_after (fun i => get false wet i) (length wet - 1 - i) i) as (b & A' & B' & C'); auto. { replace (i + (length wet - 1 - i)) with (length wet - 1) by lia. auto. }
    exists a, b. split; [|lia]. split; [lia|]. rewrite !(get_default true false) by lia. split; auto. split; auto.
    intros j Hj. destruct (le_lt_dec j i); [apply C; lia|apply C'; lia].
  - intros (a & b & (_ & _ & _ & H) & Hi'). apply H. auto.
Qed.
Lemma concat_dry channels : Forall dry_ends channels -> dry_ends (List.concat channels).
Proof.
  induction channels as [|c r IH]; intros F N; [exfalso; auto|]. inversion F as [|x y Dc Fr]; subst. cbn [List.concat] in *. rewrite app_length.
  destruct c as [|x c]; [cbn in *; apply IH; auto|]. destruct (Dc ltac:(discriminate)) as [D0 D1]. set (k := length (x :: c)) in *. assert (K : 1 <= k) by (unfold k; cbn; lia). split; [exact D0|].
  destruct (List.concat r) as [|y' r'] eqn:E.
  - cbn [length]. rewrite Nat.add_0_r. rewrite app_nil_r. exact D1.
  - destruct (IH Fr ltac:(discriminate)) as [_ I1]. unfold get in *. rewrite app_nth2 by (unfold k in *; cbn [length] in *; lia).
    replace (k + length (y' :: r') - 1 - length (x :: c)) with (length (y' :: r') - 1) by (unfold k in *; cbn [length] in *; lia). exact I1.
Qed.

(** ** several channels in one flattened array *)
Lemma firstn_get {A} (d : A) k l i : i < k -> get d (firstn k l) i = get d l i.
Proof. revert l i. induction k as [|k IH]; intros [|a l] [|i] H; auto; try lia. cbn. apply IH. lia. Qed.
Lemma channel_periods first rest : dry_ends first -> Forall dry_ends rest ->
  forall a b, In (a, b) (shaded_channel (length first) (first :: rest)) <-> wet_period first a b.
Proof.
  intros D FR. assert (R := concat_dry _ FR). unfold dry_ends in R. clear FR. unfold shaded_channel. cbn [List.concat]. set (r := List.concat rest) in *. clearbody r. set (n := length first). assert (LA : length (first ++ r) = n + length r) by apply app_length.
  assert (G1 : forall d i, i < n -> get d (first ++ r) i = get d first i) by (intros d i Hi; unfold get; rewrite app_nth1; auto).
  assert (G2 : forall d i, get d (first ++ r) (n + i) = get d r i) by (intros d i; unfold get; rewrite app_nth2 by (unfold n; lia); f_equal; unfold n; lia).
  assert (AD : forall i, i < n -> get false (rolled_and_dry (-1) (first ++ r)) i = st n (fun i => get false first i) i /\
     get false (rolled_and_dry 1 (first ++ r)) i = en (fun i => get false first i) i).
  { intros i Hi. assert (NE : first <> []) by (intros Z; unfold n in Hi; rewrite Z in Hi; cbn in Hi; lia). destruct (D NE) as [D0 D1]. fold n in D1. split.
    - rewrite rolled_get_m1 by lia. rewrite (G1 false i) by auto. unfold st, cyc_next. rewrite LA. destruct (Nat.eqb_spec (i + 1) (n + length r)) as [E|NE1].
      + rewrite G1 by lia. destruct (Nat.ltb_spec (S i) n); [lia|]. rewrite andb_false_r. rewrite (get_default false true) by (fold n; lia). rewrite D0. auto.
      + destruct (Nat.ltb_spec (S i) n).
        * rewrite G1 by lia. replace (i + 1) with (S i) by lia. rewrite andb_true_r. apply andb_comm.
        * rewrite andb_false_r. replace (i + 1) with (n + 0) by lia. rewrite G2. destruct R as [R0 _]; [intros ->; cbn in NE1; lia|].
          rewrite (get_default false true) by lia. rewrite R0. auto.
    - rewrite rolled_get_1 by lia. rewrite (G1 false i) by auto. unfold en, cyc_prev. destruct i as [|i]; [|rewrite G1 by lia; auto]. rewrite LA.
      destruct r as [|b r].
      + cbn [length]. replace (n + 0 - 1) with (n - 1) by lia. rewrite G1 by lia. rewrite (get_default false true) by (fold n; lia). rewrite D1. auto.
      + destruct R as [_ R1]; [discriminate|]. replace (n + length (b :: r) - 1) with (n + (length (b :: r) - 1)) by (cbn [length]; lia). rewrite G2.
        rewrite (get_default false true) by (cbn [length]; lia). rewrite R1. auto. }
  assert (LF : forall s, length (firstn n (rolled_and_dry s (first ++ r))) = n) by (intros s; rewrite firstn_length, rolled_length, LA; lia).
  apply shaded_markers; auto; fold n; intros i Hi; rewrite firstn_get by auto; apply AD; auto.
Qed.

(** ** the flags of the workflow *)
Section W.
Context {O : numops} (S : numsem O).
Lemma flags_dry_ends std w (th : O) l : 3 <= w -> dry_ends (map n_truthy (wet_flags std w th l)).
Proof using S.
  intros Hw N. rewrite map_length. assert (LF := wf_length std w th l).
  assert (P : 0 < length l). { destruct l; [exfalso; apply N; reflexivity|cbn; lia]. }
  assert (Z : n_truthy (zero : O) = false).
  { unfold n_truthy, zero. rewrite (val_eqb _ S), (val_0 S). cbn. rewrite Raux.Req_bool_true by reflexivity. reflexivity. }
  assert (FN : n_ltb th n_nan = false) by (apply (ltb_nan_r S); apply (isnan_nan S)).
  assert (H : forall t, t < length l -> (t < w / 2 \/ length l < t - w / 2 + w) -> get true (map n_truthy (wet_flags std w th l)) t = false).
  { intros t Ht C. rewrite (get_map n_truthy (n_nan : O)) by lia. rewrite wf_get by auto. unfold rolling_std.
    replace (Nat.leb (w / 2) t && Nat.leb (t - w / 2 + w) (length l)) with false; [rewrite FN; exact Z|].
    symmetry. apply andb_false_iff. rewrite !Nat.leb_gt. lia. }
  assert (W1 : 1 <= w / 2) by (apply Nat.div_le_lower_bound; lia). assert (W2 : 2 * (w / 2) <= w) by (apply Nat.mul_div_le; lia).
  rewrite LF. split; apply H; lia.
Qed.
End W.
Lemma flags_periods {O : numops} (S : numsem O) std w (th : O) (first : list O) rest : 3 <= w -> let wet := fun l => map n_truthy (wet_flags std w th l) in
  forall a b, In (a, b) (shaded_channel (length first) (map wet (first :: rest))) <-> wet_period (wet first) a b.
Proof.
  intros Hw wet a b. cbn [map]. assert (L : length first = length (wet first)) by (unfold wet; rewrite map_length, wf_length; auto). rewrite L.
  apply channel_periods; [apply (flags_dry_ends S); auto|]. apply Forall_forall. intros x Hx. apply in_map_iff in Hx. destruct Hx as (l & <- & _). apply (flags_dry_ends S). auto.
Qed.
