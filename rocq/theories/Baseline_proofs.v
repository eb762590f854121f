From Coq Require Import List ZArith Bool Reals Lra Lia Arith.
From Flocq Require Import Core.
From Verif Require Import Base Num NumList Baseline_model Baseline_spec.
Import ListNotations.
Local Open Scope nat_scope.

Section Constant.
Context {O : numops} (S : numsem O).

Lemma upd_beyond {A} i (v : A) l : length l <= i -> upd i v l = l.
Proof. revert i; induction l; intros [|i]; simpl; intros; auto; try lia. f_equal; apply IHl; lia. Qed.

Lemma slice_upd_after {A} s e i (v : A) l : e <= i -> slice s e (upd i v l) = slice s e l.
Proof.
  intros. unfold slice.
  destruct (le_lt_dec (length l) i) as [Hl|Hl]; [rewrite upd_beyond; auto|].
  destruct l as [|a0 l0]; [simpl in Hl; lia|].
  apply get_ext with a0.
  - rewrite !firstn_length, !skipn_length, upd_length. auto.
  - intros k Hk. rewrite firstn_length, skipn_length, upd_length in Hk.
    unfold get. rewrite !nth_firstn_lt, !nth_skipn_plus by lia.
    exact (get_upd_neq a0 i (s + k) v (a0 :: l0) ltac:(lia)).
Qed.

Lemma slice_ext {A} (d : A) s e l1 l2 :
  length l1 = length l2 ->
  (forall j, s <= j < e -> j < length l1 -> get d l1 j = get d l2 j) -> slice s e l1 = slice s e l2.
Proof.
  intros HL H. unfold slice. apply get_ext with d.
  - rewrite !firstn_length, !skipn_length; lia.
  - intros i Hi. rewrite firstn_length, skipn_length in Hi. unfold get.
    rewrite !nth_firstn_lt, !nth_skipn_plus by lia. apply H; lia.
Qed.

(** The recurrence satisfied by the result. *)
Definition const_rec (trsl : list O) (w : list bool) (n : nat) (b : list O) (i : nat) : Prop :=
  (i < n -> nget b i = nget trsl i) /\
  (n <= i ->
   nget b i = if get false w i then
                if get false w (i - 1) then nget b (i - 1) else n_mean (slice (i - n) i b)
              else nget trsl i).

Lemma numba_constant_rec (trsl : list O) w n :
  1 <= n ->
  let b := numba_baseline_constant trsl w n in
  length b = length trsl /\ forall i, i < length trsl -> const_rec trsl w n b i.
Proof.
  intros Hn b. subst b. unfold numba_baseline_constant.
  set (b0 := upd_slice 0 (slice 0 n trsl) (repeat zero (length trsl))).
  assert (Hb0 : length b0 = length trsl) by (unfold b0; rewrite upd_slice_length, repeat_length; auto).
  destruct (le_lt_dec (length trsl) n) as [Hs|Hs].
  - replace (length trsl - n) with 0 by lia. change (for_range n 0 ?f b0) with b0.
    split; auto. intros i Hi; split; [|lia]. intros _. unfold b0, nget.
    assert (L : length (slice 0 n trsl) = length trsl)
      by (unfold slice; rewrite firstn_length, skipn_length; simpl; lia).
    rewrite get_upd_slice_in by (rewrite ?repeat_length; lia).
    rewrite Nat.sub_0_r. rewrite get_slice by lia. f_equal; lia.
  - match goal with |- context [for_range n ?k ?f b0] =>
      pose proof (for_range_inv (fun i b => length b = length trsl /\
                     forall j, j < i -> const_rec trsl w n b j) n k f b0) as H end.
    replace (n + (length trsl - n)) with (length trsl) in H by lia.
    apply H; clear H.
    + split; auto. intros j Hj; split; [|lia]. intros _. unfold b0, nget.
      assert (L : length (slice 0 n trsl) = n) by (rewrite slice_length; lia).
      rewrite get_upd_slice_in by (rewrite ?repeat_length; lia).
      rewrite Nat.sub_0_r. rewrite get_slice by lia. f_equal; lia.
    + intros i b Hi [HL Hrec].
      assert (Hb' : forall v, length (upd i v b) = length trsl /\
                 (nget (upd i v b) i = v) /\
                 (forall j, j < i -> const_rec trsl w n (upd i v b) j)).
      { intros v. rewrite upd_length. split; [auto|]. split.
        - unfold nget. apply get_upd_eq; lia.
        - intros j Hj. destruct (Hrec j Hj) as [R1 R2]. unfold const_rec, nget in *.
          rewrite !get_upd_neq by lia. rewrite slice_upd_after by lia. split; auto. }
      assert (G : forall v, v = (if get false w i then
                if get false w (i - 1) then nget b (i - 1) else n_mean (slice (i - n) i b)
              else nget trsl i) -> length (upd i v b) = length trsl /\
              (forall j, j < Datatypes.S i -> const_rec trsl w n (upd i v b) j)).
      { intros v Hv. destruct (Hb' v) as (B1 & B2 & B3). split; auto.
        intros j Hj. destruct (Nat.eq_dec j i); [|apply B3; lia].
        subst j. split; [lia|]. intros _. rewrite B2, Hv.
        rewrite slice_upd_after by lia. unfold nget. rewrite get_upd_neq by lia. reflexivity. }
      destruct (get false w i); [destruct (get false w (i - 1))|]; simpl; apply G; auto.
Qed.

Lemma baseline_constant_ok (trsl wet : list O) n (b : list O) :
  baseline_constant trsl wet n = Ok b ->
  1 <= n /\ length trsl <= length wet /\ b = numba_baseline_constant trsl (map n_truthy wet) n.
Proof.
  unfold baseline_constant. destruct (Nat.ltb_spec (length wet) (length trsl)); try discriminate.
  destruct (Nat.eqb_spec n 0) as [?E|?NE]; try discriminate. intros E; injection E as <-. repeat split; auto; lia.
Qed.

Lemma truthy_flag (wet : list O) i :
  i < length wet -> get false (map n_truthy wet) i = true <-> flagged_wet wet i.
Proof.
  intros. rewrite get_map with (d := n_nan) by auto. unfold n_truthy, flagged_wet, zero.
  rewrite negb_true_iff. reflexivity.
Qed.

Lemma truthy_flag_false (wet : list O) i :
  i < length wet -> get false (map n_truthy wet) i = false <-> ~ flagged_wet wet i.
Proof.
  intros. rewrite <- truthy_flag by auto. destruct (get _ _ _); split; congruence.
Qed.

Lemma constant_rec (trsl wet : list O) n (b : list O) :
  baseline_constant trsl wet n = Ok b ->
  length b = length trsl /\ forall i, i < length trsl -> const_rec trsl (map n_truthy wet) n b i.
Proof.
  intros H. apply baseline_constant_ok in H as (H1 & H2 & ->). apply numba_constant_rec; auto.
Qed.

Lemma constant_dry (trsl wet : list O) n (b : list O) :
  baseline_constant trsl wet n = Ok b ->
  length b = length trsl /\
  forall i, i < length trsl -> i < n \/ ~ flagged_wet wet i -> get n_nan b i = get n_nan trsl i.
Proof.
  intros H. pose proof (constant_rec _ _ _ _ H) as [HL HR].
  pose proof (baseline_constant_ok _ _ _ _ H) as (H1 & H2 & _).
  split; auto. intros i Hi Hc. destruct (HR i Hi) as [R1 R2].
  destruct (le_lt_dec n i); [|apply R1; auto].
  destruct Hc as [Hc|Hc]; [lia|].
  apply truthy_flag_false in Hc; [|lia].
  specialize (R2 l). rewrite Hc in R2. exact R2.
Qed.

Lemma constant_wet (trsl wet : list O) n (b : list O) s i :
  baseline_constant trsl wet n = Ok b ->
  n <= s -> i < length trsl -> event_from wet s i ->
  get n_nan b i = n_mean (slice (s - n) s b).
Proof.
  intros H Hs Hi (E1 & E2 & E3). pose proof (constant_rec _ _ _ _ H) as [HL HR].
  pose proof (baseline_constant_ok _ _ _ _ H) as (H1 & H2 & _).
  assert (forall k, s + k <= i -> get n_nan b (s + k) = n_mean (slice (s - n) s b)).
  { induction k; intros.
    - rewrite Nat.add_0_r. destruct (HR s ltac:(lia)) as [_ R2]. unfold nget in R2. rewrite R2 by auto.
      apply truthy_flag_false in E2; [|lia]. rewrite E2.
      destruct (get false (map n_truthy wet) s) eqn:E; auto.
      apply truthy_flag_false in E; [|lia]. elim E. apply E3; lia.
    - destruct (HR (s + Datatypes.S k) ltac:(lia)) as [_ R2]. unfold nget in R2. rewrite R2 by lia.
      assert (get false (map n_truthy wet) (s + Datatypes.S k) = true) as ->.
      { apply truthy_flag; [lia|]. apply E3; lia. }
      assert (get false (map n_truthy wet) (s + Datatypes.S k - 1) = true) as ->.
      { apply truthy_flag; [lia|]. apply E3; lia. }
      replace (s + Datatypes.S k - 1) with (s + k) by lia. apply IHk; lia. }
  replace i with (s + (i - s)) by lia. apply H0; lia.
Qed.

(** wet from before step n: the value of step n-1 is kept *)
Lemma constant_wet_early (trsl wet : list O) n (b : list O) i :
  baseline_constant trsl wet n = Ok b ->
  n <= i < length trsl -> (forall j, n - 1 <= j <= i -> flagged_wet wet j) ->
  get n_nan b i = get n_nan trsl (n - 1).
Proof.
  intros H Hi E3. pose proof (constant_rec _ _ _ _ H) as [HL HR].
  pose proof (baseline_constant_ok _ _ _ _ H) as (H1 & H2 & _).
  assert (forall k, n + k <= i -> get n_nan b (n + k) = get n_nan trsl (n - 1)).
  { induction k; intros.
    - rewrite Nat.add_0_r. destruct (HR n ltac:(lia)) as [_ R2]. unfold nget in R2. rewrite R2 by auto.
      assert (get false (map n_truthy wet) n = true) as ->.
      { apply truthy_flag; [lia|]. apply E3; lia. }
      assert (get false (map n_truthy wet) (n - 1) = true) as ->.
      { apply truthy_flag; [lia|]. apply E3; lia. }
      destruct (HR (n - 1) ltac:(lia)) as [R1 _]. apply R1; lia.
    - destruct (HR (n + Datatypes.S k) ltac:(lia)) as [_ R2]. unfold nget in R2. rewrite R2 by lia.
      assert (get false (map n_truthy wet) (n + Datatypes.S k) = true) as ->.
      { apply truthy_flag; [lia|]. apply E3; lia. }
      assert (get false (map n_truthy wet) (n + Datatypes.S k - 1) = true) as ->.
      { apply truthy_flag; [lia|]. apply E3; lia. }
      replace (n + Datatypes.S k - 1) with (n + k) by lia. apply IHk; lia. }
  replace i with (n + (i - n)) by lia. apply H0; lia.
Qed.

(** The recurrence determines the result; hence causality. *)
Lemma const_rec_unique (trsl1 : list O) w1 b1 trsl2 w2 b2 n k :
  1 <= n ->
  k <= length trsl1 -> k <= length trsl2 ->
  length b1 = length trsl1 -> length b2 = length trsl2 ->
  (forall i, i < k -> nget trsl1 i = nget trsl2 i) ->
  (forall i, i < k -> get false w1 i = get false w2 i) ->
  (forall i, i < k -> const_rec trsl1 w1 n b1 i) ->
  (forall i, i < k -> const_rec trsl2 w2 n b2 i) ->
  forall i, i < k -> nget b1 i = nget b2 i.
Proof.
  intros Hn K1 K2 L1 L2 HT HW R1 R2 i.
  induction i as [i IH] using lt_wf_ind. intros Hi.
  destruct (R1 i Hi) as [A1 A2]. destruct (R2 i Hi) as [B1 B2].
  destruct (le_lt_dec n i).
  - rewrite A2, B2 by auto. rewrite (HW i), (HW (i - 1)) by lia.
    destruct (get false w2 i); [destruct (get false w2 (i - 1))|]; auto.
    + apply IH; lia.
    + f_equal. unfold slice. apply get_ext with n_nan.
      * rewrite !firstn_length, !skipn_length; lia.
      * intros j Hj. rewrite firstn_length, skipn_length in Hj. unfold get.
        rewrite !nth_firstn_lt, !nth_skipn_plus by lia. apply IH; lia.
  - rewrite A1, B1 by auto. auto.
Qed.

Lemma constant_causal (trsl1 wet1 trsl2 wet2 : list O) n b1 b2 k :
  baseline_constant trsl1 wet1 n = Ok b1 ->
  baseline_constant trsl2 wet2 n = Ok b2 ->
  k < length trsl1 -> k < length trsl2 ->
  (forall j, j <= k -> get n_nan trsl1 j = get n_nan trsl2 j) ->
  (forall j, j <= k -> get n_nan wet1 j = get n_nan wet2 j) ->
  get n_nan b1 k = get n_nan b2 k.
Proof.
  intros H1 H2 K1 K2 HT HW.
  pose proof (constant_rec _ _ _ _ H1) as [L1 R1].
  pose proof (constant_rec _ _ _ _ H2) as [L2 R2].
  pose proof (baseline_constant_ok _ _ _ _ H1) as (N1 & M1 & _).
  pose proof (baseline_constant_ok _ _ _ _ H2) as (N2 & M2 & _).
  apply (const_rec_unique trsl1 (map n_truthy wet1) b1 trsl2 (map n_truthy wet2) b2 n (Datatypes.S k));
    auto; try lia; intros.
  - apply HT; lia.
  - rewrite !get_map with (d := n_nan) by lia. rewrite HW by lia. auto.
  - apply R1; lia.
  - apply R2; lia.
Qed.

(** NaN flags are wet flags. *)
Lemma constant_nan_is_wet (trsl wet : list O) n :
  baseline_constant trsl wet n =
  baseline_constant trsl (map (fun w : O => if n_isnan w then n_ofZ 1 else w) wet) n.
Proof.
  unfold baseline_constant. rewrite map_length.
  assert (map n_truthy wet = map n_truthy (map (fun w : O => if n_isnan w then n_ofZ 1 else w) wet)) as ->; auto.
  rewrite map_map. apply map_ext. intros w.
  destruct (n_isnan w) eqn:E; auto.
  unfold n_truthy, zero. rewrite !(val_eqb _ S), !(val_ofZ _ S) by (simpl; discriminate).
  rewrite (val_isnan _ S) in E. destruct (val S w); try discriminate. simpl.
  rewrite Req_bool_false; auto.
Qed.
End Constant.

(** ** exact arithmetic: range *)
Section Range.

Lemma n_sum_fold_finite (l : list xr) acc lo hi :
  (forall x, In x l -> exists r, x = XFin r /\ (lo <= r <= hi)%R) ->
  exists r, fold_left xadd l (XFin acc) = XFin r /\
    (acc + lo * INR (length l) <= r <= acc + hi * INR (length l))%R.
Proof.
  revert acc; induction l; intros acc H.
  - exists acc; simpl; split; auto; lra.
  - destruct (H a) as (ra & -> & Ha); [left; auto|].
    destruct (IHl (acc + ra)%R) as (r & E & Hr); [intros; apply H; right; auto|].
    exists r; split; [exact E|].
    replace (length (XFin ra :: l)) with (Datatypes.S (length l)) by auto. rewrite S_INR. lra.
Qed.

Lemma n_mean_range (l : list xr) lo hi :
  l <> [] ->
  (forall x, In x l -> exists r, x = XFin r /\ (lo <= r <= hi)%R) ->
  exists r, n_mean (O := XR) l = XFin r /\ (lo <= r <= hi)%R.
Proof.
  intros Hne H. destruct (n_sum_fold_finite l 0 lo hi H) as (r & E & Hr).
  assert (P : (0 < INR (length l))%R) by (apply lt_0_INR; destruct l; simpl; [congruence|lia]).
  exists (r / INR (length l))%R. unfold n_mean, n_sum, zero. simpl. rewrite E. simpl.
  rewrite <- INR_IZR_INZ. rewrite Req_bool_false by lra. split; auto.
  split.
  - apply Rmult_le_reg_r with (INR (length l)); auto.
    unfold Rdiv; rewrite Rmult_assoc, Rinv_l, Rmult_1_r by lra. lra.
  - apply Rmult_le_reg_r with (INR (length l)); auto.
    unfold Rdiv; rewrite Rmult_assoc, Rinv_l, Rmult_1_r by lra. lra.
Qed.

Lemma constant_range (trsl : list R) (wet : list XR) n (b : list XR) lo hi :
  baseline_constant (xs trsl : list XR) wet n = Ok b ->
  (forall r, In r trsl -> (lo <= r <= hi)%R) ->
  forall i, i < length trsl -> exists r, nget b i = XFin r /\ (lo <= r <= hi)%R.
Proof.
  intros H HR. pose proof (constant_rec _ _ _ _ H) as [L R].
  pose proof (baseline_constant_ok _ _ _ _ H) as (N1 & M1 & _).
  unfold xs in L; rewrite map_length in L.
  assert (T : forall i, i < length trsl -> exists r, nget (xs trsl : list XR) i = XFin r /\ (lo <= r <= hi)%R).
  { intros i Hi. exists (get 0%R trsl i). unfold xs, nget. rewrite get_map with (d := 0%R) by auto.
    split; auto. apply HR. apply get_In; auto. }
  intros i. induction i as [i IH] using lt_wf_ind. intros Hi.
  destruct (R i) as [A1 A2]; [unfold xs; rewrite map_length; auto|].
  destruct (le_lt_dec n i).
  - rewrite (A2 l).
    destruct (get false (map n_truthy wet) i); [destruct (get false (map n_truthy wet) (i - 1))|]; auto.
    + apply IH; lia.
    + apply n_mean_range.
      * intros E. apply (f_equal (@length _)) in E. simpl in E.
        change (length (slice (i - n) i b) = 0) in E. rewrite slice_length in E; lia.
      * intros x Hx. apply In_get with (d := (n_nan : XR)) in Hx as (j & Hj & <-).
        change (j < length (slice (i - n) i b)) in Hj.
        rewrite slice_length in Hj by lia. rewrite get_slice by lia. apply IH; lia.
  - rewrite (A1 l). auto.
Qed.
End Range.

(** ** baseline_linear *)
Section Linear.
Context {O : numops}.
Variables (rsl wet : list O) (ign : bool).
Notation n := (length rsl).
Notation st_at := (state ign wet).

Definition dirty (d e : nat) : bool :=
  negb ign && existsb (fun j => n_isnan (get n_nan wet j)) (seq (d + 1) (e - d - 1)).

Lemma dirty_spec d e : dirty d e = true <-> has_nan ign wet d e.
Proof.
  unfold dirty, has_nan. rewrite andb_true_iff, negb_true_iff, existsb_exists.
  split; intros [? (j & Hj & ?)]; split; auto; exists j; split; auto.
  - apply in_seq in Hj; lia.
  - apply in_seq; lia.
Qed.

Lemma dirty_step d e : d < e -> dirty d (Datatypes.S e) =
  if n_isnan (get n_nan wet e) then (if ign then dirty d e else true) else dirty d e.
Proof.
  intros. unfold dirty. replace (Datatypes.S e - d - 1) with (Datatypes.S (e - d - 1)) by lia.
  rewrite seq_S, existsb_app. replace (d + 1 + (e - d - 1)) with e by lia. simpl.
  destruct ign; simpl.
  - destruct (n_isnan _); auto.
  - rewrite orb_false_r. destruct (n_isnan _); [apply orb_true_r|apply orb_false_r].
Qed.

Lemma dirty_empty d : dirty d (Datatypes.S d) = false.
Proof. unfold dirty. replace (Datatypes.S d - d - 1) with 0 by lia. simpl. apply andb_false_r. Qed.

Definition runval (d e j : nat) : O :=
  if dirty d e then n_nan
  else get n_nan (n_linspace (nget rsl d) (nget rsl e) (e - d + 1)) (j - d).

Lemma linspace_length (a b : O) k : length (n_linspace a b k) = k.
Proof.
  destruct k as [|[|k]]; auto. unfold n_linspace.
  rewrite app_length, map_length, seq_length. simpl; lia.
Qed.

Record Inv (i : nat) (s : lin_state) : Prop := {
  I_len : length (ls_baseline s) = n;
  I_d : ls_last_dry_i s < i;
  I_dry : st_at (ls_last_dry_i s) = false;
  I_wet : forall j, ls_last_dry_i s < j < i -> st_at j = true;
  I_rsl : ls_last_dry_rsl s = nget rsl (ls_last_dry_i s);
  I_lw : ls_last_i_is_wet s = st_at (i - 1);
  I_fn : ls_found_nan s = dirty (ls_last_dry_i s) i;
  I_run : forall d e, completed ign wet n d e -> e <= ls_last_dry_i s ->
          forall j, d <= j < e -> nget (ls_baseline s) j = runval d e j;
  I_end : forall d e, completed ign wet n d e ->
          e <= ls_last_dry_i s -> (e = ls_last_dry_i s \/ st_at (Datatypes.S e) = false) ->
          nget (ls_baseline s) e = runval d e e;
  I_iso : forall e, e <= ls_last_dry_i s -> st_at e = false ->
          (e = 0 \/ st_at (e - 1) = false) ->
          (e = ls_last_dry_i s \/ st_at (Datatypes.S e) = false) ->
          nget (ls_baseline s) e = nget rsl e;
  I_zero : forall j, ls_last_dry_i s < j < n -> nget (ls_baseline s) j = zero
}.

Lemma lin_step i s :
  1 <= i < n -> Inv i s -> exists s', lin_body rsl wet ign i s = Ok s' /\ Inv (Datatypes.S i) s'.
Proof.
  intros Hi I. destruct I as [Ilen Id Idry Iwet Irsl Ilw Ifn Irun Iend Iiso Izero].
  destruct s as [b d dr lw fn]; simpl in *.
  assert (Est : (if n_isnan (nget wet i) then (if ign then lw else true)
                else n_truthy (nget wet i)) = st_at i).
  { destruct i as [|i']; [lia|]. simpl. rewrite Ilw. unfold n_truthy, nget, zero.
    replace (Datatypes.S i' - 1) with i' by lia. reflexivity. }
  assert (Efn : (if n_isnan (nget wet i) then (if ign then fn else true) else fn) = dirty d (Datatypes.S i)).
  { rewrite dirty_step by lia. rewrite Ifn. reflexivity. }
  unfold lin_body; simpl. rewrite Est, Efn.
  assert (Hlast : lw = negb (Nat.eqb (Datatypes.S d) i)).
  { rewrite Ilw. destruct (Nat.eqb_spec (Datatypes.S d) i).
    - subst i. replace (Datatypes.S d - 1) with d by lia. auto.
    - simpl. apply Iwet; lia. }
  destruct (st_at i) eqn:Ei; simpl.
  - (* wet *)
    assert ((if negb lw then true else lw) = true) as -> by (destruct lw; auto).
    eexists; split; [reflexivity|]. constructor; simpl; auto; try lia.
    + intros j Hj. destruct (Nat.eq_dec j i); [subst; auto|apply Iwet; lia].
    + rewrite Nat.sub_0_r; auto.
  - destruct lw; simpl.
    + (* end of wet period *)
      assert (Hd : Datatypes.S d <> i) by (intros E; rewrite E, Nat.eqb_refl in Hlast; discriminate).
      assert (Hc : completed ign wet n d i).
      { repeat split; auto; try lia. }
      set (vs := if dirty d (Datatypes.S i) then repeat n_nan (i + 1 - d)
                 else n_linspace dr (nget rsl i) (i - d + 1)).
      assert (Hvs : length vs = i - d + 1).
      { unfold vs; destruct (dirty d (Datatypes.S i)); [rewrite repeat_length; lia|apply linspace_length]. }
      assert (Edirty : dirty d (Datatypes.S i) = dirty d i).
      { rewrite dirty_step by lia. destruct (n_isnan (get n_nan wet i)) eqn:En; auto.
        destruct ign eqn:Eg; auto.
        exfalso. destruct i as [|i']; [lia|]. simpl in Ei. rewrite En in Ei. discriminate. }
      assert (Hval : forall j, d <= j <= i -> get n_nan vs (j - d) = runval d i j).
      { intros j Hj. unfold vs, runval. rewrite Edirty. destruct (dirty d i).
        - unfold get. apply nth_repeat.
        - rewrite Irsl. reflexivity. }
      assert (Hb : (if dirty d (Datatypes.S i) then upd_slice d (repeat n_nan (i + 1 - d)) b
                else upd_slice d (n_linspace dr (nget rsl i) (i - d + 1)) b) = upd_slice d vs b)
        by (unfold vs; destruct (dirty d (Datatypes.S i)); auto).
      rewrite Hb.
      assert (Hin : forall j, d <= j <= i -> nget (upd_slice d vs b) j = runval d i j).
      { intros j Hj. unfold nget. rewrite get_upd_slice_in by lia. apply Hval; lia. }
      assert (Hout : forall j, j < d \/ i < j -> nget (upd_slice d vs b) j = nget b j).
      { intros j Hj. unfold nget. apply get_upd_slice_out. lia. }
      eexists; split; [reflexivity|]. constructor; cbn [ls_baseline ls_last_dry_i ls_last_dry_rsl ls_last_i_is_wet ls_found_nan]; auto; try lia.
      * rewrite upd_slice_length; auto.
      * replace (Datatypes.S i - 1) with i by lia; auto.
      * rewrite dirty_empty; auto.
      * intros d' e (C1 & C2 & C3 & C4 & C5) He j Hj.
        destruct (le_lt_dec e d).
        -- rewrite Hout by lia. apply Irun; auto; repeat split; auto.
        -- assert (e = i). { destruct (Nat.eq_dec e i); auto. rewrite Iwet in C4 by lia. discriminate. }
           subst e. assert (d' = d).
           { destruct (lt_eq_lt_dec d' d) as [[?|?]|?]; auto.
             - rewrite C5 in Idry by lia; discriminate.
             - rewrite Iwet in C3 by lia; discriminate. }
           subst d'. apply Hin; lia.
      * intros d' e (C1 & C2 & C3 & C4 & C5) He Hor.
        destruct (Nat.eq_dec e i).
        -- subst e. assert (d' = d).
           { destruct (lt_eq_lt_dec d' d) as [[?|?]|?]; auto.
             - rewrite C5 in Idry by lia; discriminate.
             - rewrite Iwet in C3 by lia; discriminate. }
           subst d'. apply Hin; lia.
        -- destruct Hor as [?|Hs]; [congruence|].
           assert (e < d).
           { destruct (lt_eq_lt_dec e d) as [[?|?]|?]; auto.
             - subst e. rewrite Iwet in Hs by lia; discriminate.
             - rewrite Iwet in C4 by lia; discriminate. }
           rewrite Hout by lia. apply Iend; auto; try lia. repeat split; auto.
      * intros e He Hse Hpre Hor.
        destruct (Nat.eq_dec e i).
        -- subst e. destruct Hpre as [?|Hp]; [lia|]. rewrite Iwet in Hp by lia. discriminate.
        -- destruct Hor as [?|Hs]; [congruence|].
           assert (e < d).
           { destruct (lt_eq_lt_dec e d) as [[?|?]|?]; auto.
             - subst e. rewrite Iwet in Hs by lia; discriminate.
             - rewrite Iwet in Hse by lia; discriminate. }
           rewrite Hout by lia. apply Iiso; auto; lia.
      * intros j Hj. rewrite Hout by lia. apply Izero; lia.
    + (* dry after dry *)
      assert (Hd : Datatypes.S d = i).
      { destruct (Nat.eqb_spec (Datatypes.S d) i); auto; discriminate. }
      assert (Edirty : dirty d (Datatypes.S i) = false).
      { rewrite dirty_step by lia. destruct (n_isnan (get n_nan wet i)) eqn:En.
        - destruct ign eqn:Eg.
          + rewrite <- Hd. apply dirty_empty.
          + exfalso. destruct i as [|i']; [lia|]. simpl in Ei. rewrite En in Ei. discriminate.
        - rewrite <- Hd. apply dirty_empty. }
      rewrite Edirty.
      assert (Hb : forall j, j <> i -> nget (upd i (nget rsl i) b) j = nget b j)
        by (intros; apply get_upd_neq; lia).
      assert (Hbi : nget (upd i (nget rsl i) b) i = nget rsl i) by (apply get_upd_eq; lia).
      eexists; split; [reflexivity|]. constructor; cbn [ls_baseline ls_last_dry_i ls_last_dry_rsl ls_last_i_is_wet ls_found_nan]; auto; try lia.
      * rewrite upd_length; auto.
      * replace (Datatypes.S i - 1) with i by lia; auto.
      * rewrite dirty_empty; auto.
      * intros d' e (C1 & C2 & C3 & C4 & C5) He j Hj.
        destruct (Nat.eq_dec e i).
        -- subst e. rewrite C5 in Idry by lia; discriminate.
        -- rewrite Hb by lia. apply Irun; auto; try lia; repeat split; auto.
      * intros d' e (C1 & C2 & C3 & C4 & C5) He Hor.
        destruct (Nat.eq_dec e i).
        -- subst e. rewrite C5 in Idry by lia; discriminate.
        -- rewrite Hb by lia. apply Iend; auto; try lia. { repeat split; auto. }
           destruct Hor; [lia|]. destruct (Nat.eq_dec e d); auto.
      * intros e He Hse Hpre Hor.
        destruct (Nat.eq_dec e i); [subst; auto|].
        rewrite Hb by lia. apply Iiso; auto; try lia.
        destruct Hor; [lia|]. destruct (Nat.eq_dec e d); auto.
      * intros j Hj. rewrite Hb by lia. apply Izero; lia.
Qed.

Lemma Inv_init : 1 <= n ->
  Inv 1 (mk_lin (upd 0 (nget rsl 0) (repeat zero n)) 0 (nget rsl 0) false false).
Proof.
  intros H1. constructor; cbn [ls_baseline ls_last_dry_i ls_last_dry_rsl ls_last_i_is_wet ls_found_nan]; auto; try lia.
  + rewrite upd_length, repeat_length; auto.
  + rewrite dirty_empty; auto.
  + intros d e C; destruct C as [C0 _]; intros; lia.
  + intros e He _ _ _. replace e with 0 by lia. unfold nget at 1. apply get_upd_eq. rewrite repeat_length; lia.
  + intros j Hj. unfold nget. rewrite get_upd_neq by lia. unfold get.
    rewrite nth_indep with (d' := zero) by (rewrite repeat_length; lia). apply nth_repeat.
Qed.

Lemma linear_final :
  1 <= n -> n <= length wet ->
  exists s, baseline_linear rsl wet ign = Ok (ls_baseline s) /\ Inv n s.
Proof.
  intros H1 H2. unfold baseline_linear.
  destruct (Nat.eqb_spec n 0) as [?E|?NE]; [lia|]. destruct (Nat.ltb_spec (length wet) n); [lia|].
  unfold numba_baseline_linear.
  set (s0 := mk_lin (upd 0 (nget rsl 0) (repeat zero n)) 0 (nget rsl 0) false false).
  destruct (for_range_res_inv Inv (n - 1) 1 (lin_body rsl wet ign) s0) as (s & E & I).
  - apply Inv_init; auto.
  - intros i s Hi I. apply lin_step; auto. lia.
  - exists s. fold s0. rewrite E. simpl. split; auto. replace n with (1 + (n - 1)) by lia. auto.
Qed.

(** *** Consequences used by the property theorems *)
Lemma linear_ok b : baseline_linear rsl wet ign = Ok b -> 1 <= n /\ n <= length wet.
Proof.
  unfold baseline_linear. destruct (Nat.eqb_spec n 0) as [?E|?NE]; try discriminate.
  destruct (Nat.ltb_spec (length wet) n); try discriminate. split; lia.
Qed.

Lemma linear_inv b : baseline_linear rsl wet ign = Ok b -> exists s, b = ls_baseline s /\ Inv n s.
Proof.
  intros H. destruct (linear_ok _ H) as [H1 H2]. destruct (linear_final H1 H2) as (s & E & I).
  exists s; split; auto. congruence.
Qed.

(** Every dry step is at or before the last dry step of the final state. *)
Lemma dry_le_last s e : Inv n s -> e < n -> st_at e = false -> e <= ls_last_dry_i s.
Proof.
  intros I He Hs. destruct (le_lt_dec e (ls_last_dry_i s)); auto.
  rewrite (I_wet _ _ I) in Hs by lia. discriminate.
Qed.

Lemma linear_run b d e j :
  baseline_linear rsl wet ign = Ok b -> completed ign wet n d e -> d <= j < e ->
  nget b j = runval d e j.
Proof.
  intros H C Hj. destruct (linear_inv _ H) as (s & -> & I).
  pose proof C as (C1 & C2 & C3 & C4 & C5).
  apply (I_run _ _ I); auto. apply dry_le_last; auto.
Qed.

Lemma linear_run_end b d e :
  baseline_linear rsl wet ign = Ok b -> completed ign wet n d e ->
  (Datatypes.S e = n \/ st_at (Datatypes.S e) = false \/
   (forall j, e < j < n -> st_at j = true)) -> nget b e = runval d e e.
Proof.
  intros H C Hn. destruct (linear_inv _ H) as (s & -> & I).
  pose proof C as (C1 & C2 & C3 & C4 & C5).
  pose proof (dry_le_last s e I C2 C4) as L.
  apply (I_end _ _ I d e); auto.
  pose proof (I_d _ _ I). pose proof (I_dry _ _ I) as Dry.
  destruct Hn as [Hn|[Hn|Hn]]; [left; lia|right; auto|].
  destruct (Nat.eq_dec e (ls_last_dry_i s)); auto.
  rewrite Hn in Dry by lia. discriminate.
Qed.

Lemma linear_iso b e :
  baseline_linear rsl wet ign = Ok b -> e < n -> st_at e = false ->
  (e = 0 \/ st_at (e - 1) = false) ->
  (Datatypes.S e = n \/ st_at (Datatypes.S e) = false \/
   (forall j, e < j < n -> st_at j = true)) -> nget b e = nget rsl e.
Proof.
  intros H He Hs Hp Hn. destruct (linear_inv _ H) as (s & -> & I).
  pose proof (dry_le_last s e I He Hs) as L.
  apply (I_iso _ _ I); auto.
  pose proof (I_d _ _ I). pose proof (I_dry _ _ I) as Dry.
  destruct Hn as [Hn|[Hn|Hn]]; [left; lia|right; auto|].
  destruct (Nat.eq_dec e (ls_last_dry_i s)); auto.
  rewrite Hn in Dry by lia. discriminate.
Qed.

Lemma linear_trailing b d j :
  baseline_linear rsl wet ign = Ok b -> d < n -> (forall i, d < i < n -> st_at i = true) ->
  d < j < n -> nget b j = zero.
Proof.
  intros H Hd Hw Hj. destruct (linear_inv _ H) as (s & -> & I).
  apply (I_zero _ _ I). pose proof (I_d _ _ I). pose proof (I_dry _ _ I) as Dry.
  destruct (le_lt_dec (ls_last_dry_i s) d); [lia|]. rewrite Hw in Dry by lia. discriminate.
Qed.

Lemma linear_length b : baseline_linear rsl wet ign = Ok b -> length b = n.
Proof. intros H. destruct (linear_inv _ H) as (s & -> & I). apply (I_len _ _ I). Qed.

Lemma linspace_get (a b : O) k i :
  2 <= k -> i < k ->
  get n_nan (n_linspace a b k) i = if Nat.eqb i (k - 1) then b else line_point a b (k - 1) i.
Proof.
  intros Hk Hi. destruct k as [|[|k]]; try lia. unfold n_linspace, get.
  destruct (Nat.eqb_spec i (Datatypes.S (Datatypes.S k) - 1)).
  - rewrite app_nth2; rewrite map_length, seq_length; [|lia].
    replace (i - _) with 0 by lia. reflexivity.
  - rewrite app_nth1 by (rewrite map_length, seq_length; lia).
    fold (get (A := O) n_nan). change (nth i ?l n_nan) with (get (A := O) n_nan l i).
    rewrite get_map_seq by lia. reflexivity.
Qed.

Lemma runval_clean d e j : d + 1 < e -> d <= j <= e -> ~ has_nan ign wet d e ->
  runval d e j = if Nat.eqb j e then nget rsl e else line_point (nget rsl d) (nget rsl e) (e - d) (j - d).
Proof.
  intros H1 H2 H3. unfold runval. destruct (dirty d e) eqn:D; [apply dirty_spec in D; contradiction|].
  rewrite linspace_get by lia. replace (e - d + 1 - 1) with (e - d) by lia.
  destruct (Nat.eqb_spec j e), (Nat.eqb_spec (j - d) (e - d)); auto; lia.
Qed.

Lemma runval_nan d e j : has_nan ign wet d e -> runval d e j = n_nan.
Proof. intros H. unfold runval. apply dirty_spec in H. rewrite H. auto. Qed.

End Linear.
