(** * Proofs for RollSum_props.v *)
From Coq Require Import Reals Lra Lia ZArith Bool List.
From Flocq Require Import Core.
From Verif Require Import Base Num NumF64 NumList RealSpec RealStat Ulp64 Median RollSum_model HaversineFloat_spec HaversineFloat_proofs HaversineFloat_proofs2 HaversineAcc_proofs FloatErr_spec FloatErr_proofs IdwFloat_proofs MinMaxFloat_proofs RollSum_spec.
Import ListNotations.
Local Open Scope nat_scope.

(** ** windows *)
Lemma present_app vals a b : present vals (a ++ b) = present vals a ++ present vals b.
Proof. induction a as [|i a IH]; [reflexivity|]. cbn. destruct (vals i); cbn; rewrite IH; reflexivity. Qed.
Lemma window_grow vals w t : t + 1 < w + 1 -> window_numbers vals w t = present vals (seq 0 t) ++ present vals [t].
Proof.
  intros H. unfold window_numbers. replace (t + 1 - w) with 0 by lia. rewrite Nat.sub_0_r, Nat.add_1_r, seq_S, present_app. reflexivity.
Qed.
Lemma window_before vals w t : t <= w -> present vals (seq 0 t) = match t with 0 => [] | S t => window_numbers vals w t end.
Proof. destruct t; [reflexivity|]. intros H. unfold window_numbers. replace (t + 1 - w) with 0 by lia. rewrite Nat.sub_0_r, Nat.add_1_r. reflexivity. Qed.
Lemma window_slide vals w t : 1 <= w -> w <= t -> present vals [t - w] ++ window_numbers vals w t = window_numbers vals w (t - 1) ++ present vals [t].
Proof.
  intros W H. unfold window_numbers. rewrite <- !present_app. f_equal. replace (t - 1 + 1 - w) with (t - w) by lia. replace (t + 1 - w) with (S (t - w)) by lia.
  replace (t - 1 + 1 - (t - w)) with w by lia. replace (t + 1 - S (t - w)) with w by lia.
  change ([t - w] ++ seq (S (t - w)) w) with (seq (t - w) (S w)). rewrite seq_S. f_equal. f_equal. lia.
Qed.

(** ** the loop *)
Section Run.
Context {O : numops}.
Fixpoint state_at (w : nat) (l : list O) (n : nat) : running O :=
  match n with 0 => mk_running zero 0 | S n => move_step w l n (state_at w l n) end.
Lemma move_run_map w k l n : forall i, move_run w k l i n (state_at w l i) = map (fun j => move_out k j (state_at w l (S j))) (seq i n).
Proof.
  induction n as [|n IH]; intros i; [reflexivity|]. cbn [move_run seq map]. f_equal.
  rewrite Nat.add_1_r. change (move_step w l i (state_at w l i)) with (state_at w l (S i)). apply IH.
Qed.
Lemma move_sum_get w k (l : list O) : rolling_ok w k (length l) = true ->
  exists r, move_sum w k l = Ok r /\ length r = length l /\ forall t, t < length l -> get n_nan r t = move_out k t (state_at w l (S t)).
Proof.
  intros H. unfold move_sum. rewrite H. eexists. split; [reflexivity|]. change (mk_running zero 0) with (state_at w l 0). rewrite move_run_map.
  split; [rewrite map_length, seq_length; reflexivity|]. intros t Ht. unfold get. rewrite (nth_indep _ _ (move_out k 0 (state_at w l 1))) by (rewrite map_length, seq_length; auto).
  rewrite (map_nth (fun j => move_out k j (state_at w l (S j)))), seq_nth by auto. reflexivity.
Qed.

Variable l : list O.
Variable vals : nat -> option R.
Hypothesis nans : forall i, i < length l -> n_isnan (nget l i) = match vals i with Some _ => false | None => true end.
Lemma count_at w n : 1 <= w -> n < length l -> r_count (state_at w l (S n)) = length (window_numbers vals w n).
Proof using nans.
  intros W. induction n as [n IH] using (well_founded_induction lt_wf). intros L.
  assert (PREV : r_count (state_at w l n) = match n with 0 => 0 | S m => length (window_numbers vals w m) end) by (destruct n; [reflexivity|apply IH; lia]).
  cbn [state_at]. unfold move_step. rewrite (nans n L). destruct (Nat.ltb_spec n w).
  - rewrite window_grow, (window_before _ w) by lia. rewrite app_length. cbn [present]. destruct (vals n); cbn [negb r_count length]; rewrite PREV; destruct n; cbn; lia.
  - pose proof (f_equal (@length R) (window_slide vals w n W H)) as E. rewrite !app_length in E. cbn [present] in E. rewrite (nans (n - w)) by lia.
    destruct n as [|m]; [lia|]. replace (S m - 1) with m in E by lia.
    destruct (vals (S m)), (vals (S m - w)); cbn [negb r_count length] in *; rewrite PREV; lia.
Qed.
End Run.
Lemma present_le vals is : length (present vals is) <= length is.
Proof. induction is as [|i is IH]; [cbn; lia|]. cbn. destruct (vals i); cbn; lia. Qed.
Lemma window_le vals w t : length (window_numbers vals w t) <= w /\ length (window_numbers vals w t) <= t + 1.
Proof. unfold window_numbers. pose proof (present_le vals (seq (t + 1 - w) (t + 1 - (t + 1 - w)))) as H. rewrite seq_length in H. lia. Qed.

(** ** exact arithmetic *)
Section Exact.
Variable l : list XR.
Variable vals : nat -> option R.
Hypothesis S : exact_series l vals.
Lemma exact_nans i : i < length l -> n_isnan (nget l i) = match vals i with Some _ => false | None => true end.
Proof using S. intros H. change (xisnan (get XNaN l i) = match vals i with Some _ => false | None => true end). rewrite (S i H). destruct (vals i); reflexivity. Qed.
Lemma exact_sum w n : 1 <= w -> n < length l -> r_sum (state_at w l (Datatypes.S n)) = (XFin (rsum (window_numbers vals w n)) : XR).
Proof using S.
  intros W. induction n as [n IH] using (well_founded_induction lt_wf). intros L.
  assert (PREV : r_sum (state_at w l n) = (XFin (rsum (match n with 0 => [] | Datatypes.S m => window_numbers vals w m end)) : XR)) by (destruct n; [reflexivity|apply IH; lia]).
  pose proof (S n L) as EN. pose proof (exact_nans n L) as NN. unfold state_at; fold (@state_at XR). unfold move_step. rewrite NN.
  destruct (Nat.ltb_spec n w).
  - rewrite window_grow, (window_before _ w), rsum_app by lia. cbn [present]. destruct (vals n) as [r|]; cbn [negb r_sum].
    + rewrite PREV. change (nget l n) with (get XNaN l n). rewrite EN. cbn. f_equal. destruct n; cbn; ring.
    + rewrite PREV. f_equal. destruct n; cbn; ring.
  - pose proof (f_equal rsum (window_slide vals w n W H)) as E. rewrite !rsum_app in E. cbn [present] in E. assert (L' : n - w < length l) by lia.
    rewrite (exact_nans (n - w)) by lia. pose proof (S (n - w) L') as EO. destruct n as [|m]; [lia|]. replace (Datatypes.S m - 1) with m in E by lia.
    change (nget l (Datatypes.S m)) with (get XNaN l (Datatypes.S m)). change (nget l (Datatypes.S m - w)) with (get XNaN l (Datatypes.S m - w)). rewrite EN, EO.
    destruct (vals (Datatypes.S m)) as [a|], (vals (Datatypes.S m - w)) as [b|]; cbn [negb r_sum]; rewrite PREV; cbn; f_equal; cbn in E; lra.
Qed.
Lemma trailing_numbers w t : 1 <= w -> t < length l -> not_nan (trailing w t l) = ofR (window_numbers vals w t).
Proof using S.
  intros W H. unfold trailing, window_numbers.
  assert (G : forall n a, a + n <= length l -> not_nan (slice a (a + n) l) = ofR (present vals (seq a n))).
  { induction n as [|n IH]; intros a Ha.
    - unfold slice. rewrite Nat.add_0_r, Nat.sub_diag. reflexivity.
    - replace (slice a (a + Datatypes.S n) l) with (get XNaN l a :: slice (Datatypes.S a) (Datatypes.S a + n) l).
      + cbn [seq present]. rewrite (S a) by lia. specialize (IH (Datatypes.S a) ltac:(lia)). destruct (vals a) as [r|]; cbn [not_nan filter]; cbn [n_isnan XR xisnan negb]; [cbn [ofR map]; f_equal; exact IH|exact IH].
      + apply (get_ext (XNaN : XR)).
        * cbn [length]. rewrite !slice_length by lia. lia.
        * intros j Hj. cbn [length] in Hj. rewrite slice_length in Hj by lia. rewrite get_slice by lia. destruct j as [|j]; cbn [get nth]; [rewrite Nat.add_0_r; reflexivity|].
          change (nth j (slice (Datatypes.S a) (Datatypes.S a + n) l) (XNaN : XR)) with (get (XNaN : XR) (slice (Datatypes.S a) (Datatypes.S a + n) l) j).
          rewrite get_slice by lia. f_equal. lia. }
  rewrite <- G by lia. f_equal. f_equal. lia.
Qed.
Lemma move_sum_exact w k : move_sum w k l = rolling n_sum w k l.
Proof using S.
  destruct (rolling_ok w k (length l)) eqn:OK; [|unfold move_sum, rolling; rewrite OK; reflexivity].
  pose proof (proj1 (rolling_ok_true w k (length l)) OK) as [[K1 K2] K3].
  destruct (move_sum_get w k l OK) as (r & -> & LR & GR). destruct (rolling_get n_sum w k l OK) as (r' & -> & LR' & GR'). f_equal.
  apply (get_ext (n_nan : XR)); [congruence|]. intros t Ht. rewrite LR in Ht. rewrite GR, GR' by assumption. cbv zeta. rewrite trailing_numbers by lia.
  unfold move_out. rewrite (count_at l vals exact_nans), exact_sum by lia. unfold ofR. rewrite map_length. fold (ofR (window_numbers vals w t)). pose proof (window_le vals w t) as [_ WL].
  destruct (Nat.ltb_spec (t + 1) k), (Nat.leb_spec k (length (window_numbers vals w t))), (Nat.ltb_spec (length (window_numbers vals w t)) k); try lia; try reflexivity.
  rewrite n_sum_ofR. reflexivity.
Qed.
End Exact.

(** ** binary64 *)
Local Open Scope R_scope.
Lemma add_rel x y a b : is_num x a -> is_num y b -> Rabs (rnd64 (a + b) - (a + b)) <= u64 * Rabs (a + b).
Proof.
  intros X Y. destruct (Rle_dec (bpow radix2 (-1022)) (Rabs (a + b))) as [H|H].
  - destruct (rnd64_rel _ H) as (d & D & ->). replace ((a + b) * (1 + d) - (a + b)) with (d * (a + b)) by ring. rewrite Rabs_mult. apply Rmult_le_compat_r; [apply Rabs_pos|auto].
  - rewrite rnd64_generic.
    + rewrite Rminus_eq_0, Rabs_R0. apply Rmult_le_pos; [apply Rlt_le, u64_pos|apply Rabs_pos].
    + assert (GX : generic_format radix2 (FLT_exp (-1074) 53) a) by (rewrite <- (num_generic _ _ X); apply rnd64_format).
      assert (GY : generic_format radix2 (FLT_exp (-1074) 53) b) by (rewrite <- (num_generic _ _ Y); apply rnd64_format).
      change (generic_format radix2 (FLT_exp (-1074) 53) (a + b)). apply (Plus_error.FLT_format_plus_small radix2 (-1074) 53); auto.
      apply Rlt_le, Rlt_trans with (bpow radix2 (-1022)); [lra|]. apply bpow_lt. lia.
Qed.
Lemma running_err M w s S E d delta s' : 0 <= M -> 0 <= w -> 0 <= E <= M / 2 -> Rabs (s - S) <= E -> Rabs (d - delta) <= u64 * (2 * M) -> Rabs (S + delta) <= w * M ->
  Rabs (s + d) <= (w + 1) * M /\ (Rabs (s' - (s + d)) <= u64 * Rabs (s + d) -> Rabs (s' - (S + delta)) <= E + (w + 4) * u64 * M).
Proof.
  intros HM Hw HE H1 H2 H3. pose proof u64_pos as UP. pose proof u64_small as US.
  assert (U2 : u64 * (2 * M) <= / 1024 * (2 * M)) by (apply Rmult_le_compat_r; lra).
  assert (A : Rabs (s + d) <= w * M + E + u64 * (2 * M)).
  { replace (s + d) with ((S + delta) + ((s - S) + (d - delta))) by ring. eapply Rle_trans; [apply Rabs_triang|]. eapply Rle_trans; [apply Rplus_le_compat_l, Rabs_triang|]. lra. }
  split; [lra|]. intros H4.
  assert (B : u64 * Rabs (s + d) <= u64 * (w * M + M / 2 + / 1024 * (2 * M))) by (apply Rmult_le_compat_l; lra).
  replace (s' - (S + delta)) with ((s' - (s + d)) + ((s - S) + (d - delta))) by ring. eapply Rle_trans; [apply Rabs_triang|]. eapply Rle_trans; [apply Rplus_le_compat_l, Rabs_triang|].
  assert (0 <= u64 * M) by (apply Rmult_le_pos; lra). lra.
Qed.
Lemma rsum_le_len M r : (forall v, In v r -> Rabs v <= M) -> Rabs (rsum r) <= INR (length r) * M.
Proof.
  intros H. induction r as [|v r IH]; [cbn; rewrite Rabs_R0; lra|]. cbn [length]. rewrite S_INR. cbn [rsum fold_right]. fold (rsum r).
  eapply Rle_trans; [apply Rabs_triang|]. pose proof (H v (or_introl eq_refl)). specialize (IH (fun x Hx => H x (or_intror Hx))). lra.
Qed.
Lemma present_in vals is v : In v (present vals is) -> exists i, In i is /\ vals i = Some v.
Proof.
  induction is as [|i is IH]; [contradiction|]. cbn. destruct (vals i) as [r|] eqn:E.
  - intros [->|H]; [exists i; auto|]. destruct (IH H) as (j & J & K). exists j. auto.
  - intros H. destruct (IH H) as (j & J & K). exists j. auto.
Qed.

Section Float.
Variable l : list F64.
Variable vals : nat -> option R.
Hypothesis S : float_series l vals.
Lemma float_nans i : (i < length l)%nat -> n_isnan (nget l i) = match vals i with Some _ => false | None => true end.
Proof using S.
  intros H. pose proof (val_isnan _ F64sem (nget l i)) as V. change (n_isnan (nget l i) = xisnan (f_val (nget l i))) in V. rewrite V. change (nget l i) with (get (n_nan : F64) l i). rewrite (S i H). destruct (vals i); reflexivity.
Qed.
Variable M : R.
Hypothesis bound : forall i r, (i < length l)%nat -> vals i = Some r -> Rabs r <= M.
Hypothesis M0 : 0 <= M <= 2 ^ 900.
Hypothesis short : INR (length l) <= 2 ^ 20.
Lemma window_bound w t : (t < length l)%nat -> Rabs (rsum (window_numbers vals w t)) <= INR w * M.
Proof using bound M0.
  intros H. eapply Rle_trans; [apply rsum_le_len with (M := M)|].
  - intros v I. apply present_in in I as (i & I & E). apply in_seq in I. apply (bound i); auto. lia.
  - apply Rmult_le_compat_r; [lra|]. apply le_INR, window_le.
Qed.
Lemma float_sum w n : (1 <= w <= length l)%nat -> (n < length l)%nat ->
  exists s, is_num (r_sum (state_at w l (Datatypes.S n))) s /\ Rabs (s - rsum (window_numbers vals w n)) <= INR (n + 1) * ((INR w + 4) * u64 * M).
Proof using S bound M0 short.
  intros W. induction n as [n IH] using (well_founded_induction lt_wf). intros L. pose proof u64_pos as UP.
  set (win := match n with 0%nat => [] | Datatypes.S m => window_numbers vals w m end).
  set (E := INR n * ((INR w + 4) * u64 * M)).
  assert (PREV : exists s, is_num (r_sum (state_at w l n)) s /\ Rabs (s - rsum win) <= E).
  { destruct n as [|m].
    - exists 0. split; [apply is_zero|]. unfold E, win. cbn. rewrite Rminus_0_r, Rabs_R0. lra.
    - destruct (IH m ltac:(lia) ltac:(lia)) as (s & Hs & He). exists s. split; [exact Hs|]. unfold E, win. rewrite Nat.add_1_r in He. exact He. }
  destruct PREV as (s & Ns & Hs).
  assert (EN : INR (n + 1) * ((INR w + 4) * u64 * M) = E + (INR w + 4) * u64 * M) by (unfold E; rewrite plus_INR; cbn [INR]; lra). rewrite EN.
  assert (W20 : 0 <= INR w <= 2 ^ 20) by (split; [apply pos_INR|]; eapply Rle_trans; [apply le_INR, (proj2 W)|assumption]).
  assert (N20 : 0 <= INR n <= 2 ^ 20) by (split; [apply pos_INR|]; eapply Rle_trans; [apply le_INR, Nat.lt_le_incl, L|assumption]).
  assert (HE : 0 <= E <= M / 2).
  { assert (P : 0 <= (INR w + 4) * u64) by (apply Rmult_le_pos; lra). split; [apply Rmult_le_pos; [lra|]; apply Rmult_le_pos; lra|].
    unfold E. rewrite <- Rmult_assoc. unfold Rdiv. rewrite (Rmult_comm M). apply Rmult_le_compat_r; [lra|].
    apply Rle_trans with (2 ^ 20 * ((2 ^ 20 + 4) * u64)); [apply Rmult_le_compat; try lra; apply Rmult_le_compat_r; lra|]. rewrite u64_val. simpl. lra. }
  assert (BIG : (INR w + 1) * M <= big).
  { apply Rle_trans with (2 ^ 21 * 2 ^ 900); [apply Rmult_le_compat; lra|]. rewrite <- pow_add, <- pow_bpow. apply bpow_le. lia. }
  assert (EXT : 0 <= (INR w + 4) * u64 * M) by (apply Rmult_le_pos; [apply Rmult_le_pos; lra|lra]).
  pose proof (S n L) as FN. pose proof (window_bound w n L) as WB. unfold state_at; fold (@state_at F64). unfold move_step. rewrite (float_nans n L).
  change (nget l n) with (get (n_nan : F64) l n).
  assert (ADD : forall x r, is_num x r -> rsum (window_numbers vals w n) = rsum win + r ->
    exists s', is_num (n_add (r_sum (state_at w l n)) x) s' /\ Rabs (s' - rsum (window_numbers vals w n)) <= E + (INR w + 4) * u64 * M).
  { intros x r X EQ. rewrite EQ in *. destruct (running_err M (INR w) s (rsum win) E r r (rnd64 (s + r)) ltac:(lra) ltac:(lra) HE Hs) as [B1 B2]; [rewrite Rminus_eq_0, Rabs_R0; apply Rmult_le_pos; lra|exact WB|].
    exists (rnd64 (s + r)). split; [apply is_add; auto; lra|]. apply B2. apply (add_rel _ _ _ _ Ns X). }
  destruct (Nat.ltb_spec n w).
  - assert (EW : rsum (window_numbers vals w n) = rsum win + rsum (present vals [n])) by (rewrite window_grow, (window_before _ w), rsum_app by lia; reflexivity).
    cbn [present] in EW. destruct (vals n) as [r|] eqn:EV; cbn [negb r_sum].
    + apply (ADD _ r); [exact FN|]. rewrite EW. cbn. lra.
    + exists s. split; [exact Ns|]. replace (rsum (window_numbers vals w n)) with (rsum win) by (rewrite EW; change (rsum []) with 0; lra). lra.
  - pose proof (f_equal rsum (window_slide vals w n ltac:(lia) H)) as EW. rewrite !rsum_app in EW. cbn [present] in EW. assert (L' : (n - w < length l)%nat) by lia.
    rewrite (float_nans (n - w) L'). pose proof (S _ L') as FO. change (nget l (n - w)) with (get (n_nan : F64) l (n - w)).
    assert (EWin : win = window_numbers vals w (n - 1)) by (unfold win; destruct n as [|m]; [lia|]; f_equal; lia). rewrite <- EWin in EW.
    destruct (vals n) as [a|] eqn:EA, (vals (n - w)%nat) as [b|] eqn:EB; cbn [negb r_sum]; cbn in EW.
    + assert (Ba : Rabs a <= M) by (apply (bound n); auto). assert (Bb : Rabs b <= M) by (apply (bound (n - w)%nat); auto).
      assert (Bab : Rabs (a - b) <= 2 * M) by (unfold Rminus; eapply Rle_trans; [apply Rabs_triang|]; rewrite Rabs_Ropp; lra).
      assert (Bbig : Rabs (a - b) <= big).
      { eapply Rle_trans; [exact Bab|]. eapply Rle_trans; [|exact BIG]. apply Rmult_le_compat_r; [lra|]. assert (1 <= INR w) by (apply (le_INR 1); lia). lra. }
      assert (Nd : is_num (n_sub (get (n_nan : F64) l n) (get (n_nan : F64) l (n - w))) (rnd64 (a - b))) by (apply is_sub; auto).
      assert (EQ : rsum (window_numbers vals w n) = rsum win + (a - b)) by lra.
      destruct (running_err M (INR w) s (rsum win) E (rnd64 (a - b)) (a - b) (rnd64 (s + rnd64 (a - b))) ltac:(lra) ltac:(lra) HE Hs) as [B1 B2]; [|rewrite <- EQ; exact WB|].
      { eapply Rle_trans; [apply (sub_rel _ _ _ _ FN FO)|]. apply Rmult_le_compat_l; lra. }
      exists (rnd64 (s + rnd64 (a - b))). split; [apply is_add; auto; lra|]. rewrite EQ. apply B2. apply (add_rel _ _ _ _ Ns Nd).
    + apply (ADD _ a); [exact FN|]. lra.
    + assert (EQ : rsum (window_numbers vals w n) = rsum win + - b) by lra.
      destruct (running_err M (INR w) s (rsum win) E (- b) (- b) (rnd64 (s - b)) ltac:(lra) ltac:(lra) HE Hs) as [B1 B2]; [rewrite Rminus_eq_0, Rabs_R0; apply Rmult_le_pos; lra|rewrite <- EQ; exact WB|].
      exists (rnd64 (s - b)). split; [apply is_sub; auto; unfold Rminus; lra|]. rewrite EQ. apply B2. apply (sub_rel _ _ _ _ Ns FO).
    + exists s. split; [exact Ns|]. replace (rsum (window_numbers vals w n)) with (rsum win) by lra. lra.
Qed.
Lemma move_sum_float w k : (1 <= k <= w)%nat -> (w <= length l)%nat ->
  exists r, move_sum w k l = Ok r /\ length r = length l /\ forall t, (t < length l)%nat ->
    ((length (window_numbers vals w t) < k)%nat -> n_isnan (get n_nan r t) = true) /\
    ((k <= length (window_numbers vals w t))%nat -> exists s, is_num (get n_nan r t) s /\
       Rabs (s - rsum (window_numbers vals w t)) <= INR (t + 1) * (INR w + 4) / 2 ^ 53 * M).
Proof using S bound M0 short.
  intros K W. assert (OK : rolling_ok w k (length l) = true) by (apply rolling_ok_true; lia).
  destruct (move_sum_get w k l OK) as (r & E & LR & GR). exists r. split; [exact E|]. split; [exact LR|]. intros t Ht. rewrite (GR t Ht).
  unfold move_out. rewrite (count_at l vals float_nans) by lia. pose proof (window_le vals w t) as [_ WL]. split; intros C.
  - assert (NN : n_isnan (n_nan : F64) = true) by reflexivity. destruct (Nat.ltb_spec (t + 1) k); [exact NN|]. destruct (Nat.leb_spec k (length (window_numbers vals w t))); [lia|exact NN].
  - destruct (Nat.ltb_spec (t + 1) k); [lia|]. destruct (Nat.leb_spec k (length (window_numbers vals w t))); [|lia].
    destruct (float_sum w t ltac:(lia) Ht) as (s & Ns & Hs). exists s. split; [exact Ns|]. eapply Rle_trans; [exact Hs|]. right. rewrite u64_val. unfold Rdiv. change (IZR (2 ^ 53)) with (IZR (Z.pow_pos 2 53)). replace (2 ^ 53) with (IZR (Z.pow_pos 2 53)) by (simpl; lra). ring.
Qed.
End Float.
