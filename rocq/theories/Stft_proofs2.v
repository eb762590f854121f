(** * Proofs about the STFT classification: arguments and the dry period *)
From Coq Require Import List ZArith Bool Lia Arith Reals Lra.
From Flocq Require Import Core.
From Verif Require Import Base Num NumList NpOps RealStat MinMax_model Stft_model Stft_spec Stft_proofs.
Import ListNotations.
Local Open Scope nat_scope.

Section Args.
Context {O : numops}.

Theorem stft_mirror_fails (env : stft_env O) rsl wl thr fd a b d window Pxx fo :
  exists e, stft_classification env rsl wl thr fd a b d true window Pxx fo = Err e.
Proof.
  unfold stft_classification. destruct (spectrogram env rsl wl true window Pxx fo) as [s|e]; cbn [bind]; eauto.
  unfold extend. destruct (fst (fst s)); cbn [bind]; eauto. destruct (snd s); cbn [bind]; eauto.
Qed.
Theorem stft_mirror_computed (env : stft_env O) rsl (wl : Z) thr fd a b d window fo P f :
  let even := if Z.even wl then wl else (wl + 1)%Z in
  specg env rsl even (match window with Some w => w | None => hamming env wl end) = Ok (P, f) -> P <> [] ->
  stft_classification env rsl wl thr fd a b d true window None fo = Err TypeError.
Proof.
  intros even E NE. unfold stft_classification. cbn [spectrogram].
  assert (EN : (if (wl mod 2 =? 0)%Z then wl else (wl + 1)%Z) = even).
  { unfold even. rewrite Zeven_mod. destruct (Z.eqb_spec (wl mod 2) 0) as [H|H], (Zeq_bool (wl mod 2) 0) eqn:Q; auto.
    - apply Zeq_bool_neq in Q. congruence.
    - apply Zeq_bool_eq in Q. congruence. }
  rewrite EN. assert (E' : specg env rsl even match window with None => hamming env wl | Some w => w end = Ok (P, f)) by (destruct window; exact E).
  rewrite E'. cbn [bind fst snd]. unfold extend. destruct P; [congruence|]. reflexivity.
Qed.
Theorem stft_mirror_supplied (env : stft_env O) rsl wl thr fd a b d window P f : P <> [] ->
  stft_classification env rsl wl thr fd a b d true window (Some P) (Some f) = Err OtherError.
Proof. intros NE. unfold stft_classification. cbn [spectrogram bind fst snd]. unfold extend. destruct P; [congruence|]. reflexivity. Qed.
Theorem stft_no_f (env : stft_env O) rsl wl thr fd a b d m window P :
  stft_classification env rsl wl thr fd a b d m window (Some P) None = Err ValueError.
Proof. reflexivity. Qed.
Theorem stft_too_long (env : stft_env O) rsl wl thr fd a b d window Pxx fo P f c :
  uses env rsl wl window Pxx fo P f -> P <> [] -> rect c P -> length rsl < c ->
  stft_classification env rsl wl thr fd a b d false window Pxx fo = Err ValueError.
Proof.
  intros U NE R H. destruct (uses_spec _ _ _ _ _ _ _ _ U) as [N E]. unfold stft_classification. rewrite E. cbn [bind fst snd].
  rewrite (extend_long rsl P N c) by auto. reflexivity.
Qed.
Theorem stft_bad_combination (env : stft_env O) rsl wl thr fd (a b d : option Z) window Pxx fo P f c :
  uses env rsl wl window Pxx fo P f -> P <> [] -> rect c P -> c <= length rsl ->
  ~ (a <> None /\ b <> None /\ d = None) -> ~ (a = None /\ b = None /\ d <> None) ->
  stft_classification env rsl wl thr fd a b d false window Pxx fo = Err AttributeError.
Proof.
  intros U NE R H N1 N2. destruct (uses_spec _ _ _ _ _ _ _ _ U) as [N E]. unfold stft_classification. rewrite E. cbn [bind fst snd].
  destruct (extend_ok rsl P N c NE R H) as (X & EX & _). rewrite EX. cbn [bind].
  assert (D : dry_period env rsl a b d = Err AttributeError).
  { destruct a, b, d; cbn; auto; exfalso; [apply N1|apply N2]; repeat split; discriminate. }
  rewrite D. reflexivity.
Qed.
Theorem stft_negative (env : stft_env O) rsl wl thr fd i j (a b : nat) window Pxx fo P f c :
  uses env rsl wl window Pxx fo P f -> P <> [] -> rect c P -> c <= length rsl ->
  means_sample (length rsl) i a -> means_sample (length rsl) j b ->
  stft_classification env rsl wl thr fd (Some i) (Some j) None false window Pxx fo =
  stft_classification env rsl wl thr fd (Some (Z.of_nat a)) (Some (Z.of_nat b)) None false window Pxx fo.
Proof.
  intros U NE R H Hi Hj. destruct (uses_spec _ _ _ _ _ _ _ _ U) as [N E]. unfold stft_classification. rewrite E. cbn [bind fst snd].
  destruct (extend_ok rsl P N c NE R H) as (X & EX & LX & HX). rewrite EX. cbn [bind dry_period fst snd].
  assert (B : forall n i a, means_sample n i a -> py_bound n i = py_bound n (Z.of_nat a)).
  { intros n i0 a0 (M1 & M2 & M3). unfold py_bound. destruct (Z.ltb_spec i0 0), (Z.ltb_spec (Z.of_nat a0) 0); lia. }
  assert (Q : map (fun row => nanmean (py_slice i j row)) X = map (fun row => nanmean (py_slice (Z.of_nat a) (Z.of_nat b) row)) X).
  { apply map_ext_in. intros row Hr. apply (In_get []) in Hr as (k & Hk & <-). rewrite HX by lia.
    unfold py_slice. rewrite map_length, seq_length, (B _ _ _ Hi), (B _ _ _ Hj). reflexivity. }
  unfold classify. rewrite Q. reflexivity.
Qed.
End Args.

Section Find.
Context {O : numops} (S : numsem O).

Lemma slice_seq (x : list O) s w : s + w <= length x -> slice s (s + w) x = map (nget x) (seq s w).
Proof.
  intros H. apply (get_ext n_nan); [rewrite slice_length, map_length, seq_length by auto; lia|].
  intros i Hi. rewrite slice_length in Hi by auto. rewrite get_slice by auto. rewrite (get_map _ 0) by (rewrite seq_length; lia).
  unfold get at 2. rewrite seq_nth by lia. reflexivity.
Qed.
Lemma forallb_negb (v : list O) : forallb (fun y => negb (n_isnan y)) v = negb (existsb n_isnan v).
Proof. induction v as [|y v IH]; auto. cbn. rewrite IH. destruct (n_isnan y); auto. Qed.
Lemma roll_at (env : stft_env O) w rsl k : k < length rsl ->
  nget (rolling_std env w rsl) k = match window_at w rsl k with Some v => rstd env v | None => n_nan end.
Proof.
  intros H. unfold nget, rolling_std. rewrite get_map_seq by auto. unfold window_at.
  destruct (Nat.ltb_spec k (length rsl)); [|lia]. destruct (Nat.ltb_spec (k + 1) w); destruct (Nat.leb_spec w (k + 1)); try lia; cbn [andb orb]; auto.
  rewrite forallb_negb. assert (Q : slice (k + 1 - w) (k + 1) rsl = map (nget rsl) (seq (k + 1 - w) w)).
  { replace (k + 1) with (k + 1 - w + w) at 2 by lia. apply slice_seq. lia. }
  rewrite Q. destruct (existsb n_isnan _); reflexivity.
Qed.
Lemma roll_length (env : stft_env O) w rsl : length (rolling_std env w rsl) = length rsl.
Proof. unfold rolling_std. rewrite map_length, seq_length. auto. Qed.

Lemma nanmin_spec (l : list O) : (exists x, In x l /\ n_isnan x = false) ->
  In (nanmin l) l /\ n_isnan (nanmin l) = false /\ forall y, In y l -> n_isnan y = false -> n_leb (nanmin l) y = true.
Proof.
  intros (x & Hx & Nx). unfold nanmin.
  assert (F : In x (filter (fun x => negb (n_isnan x)) l)) by (apply filter_In; rewrite Nx; auto).
  destruct (filter (fun x => negb (n_isnan x)) l) as [|z t] eqn:EF; [destruct F|].
  assert (In_l : forall y, In y (z :: t) <-> In y l /\ n_isnan y = false).
  { intros y. rewrite <- EF, filter_In. destruct (n_isnan y); cbn; intuition discriminate. }
  assert (Sp : let m := np_fold n_ltb z t in if existsb n_isnan (z :: t) then n_isnan m = true else In m (z :: t) /\ forall y, In y (z :: t) -> n_leb m y = true).
  { apply (np_fold_spec n_ltb n_leb); intros.
    - apply (ltb_false_leb S); auto.
    - apply (ltb_leb S); auto.
    - apply (leb_refl S); auto.
    - eapply (leb_trans S); eauto. }
  cbv zeta in Sp.
  assert (EX : existsb n_isnan (z :: t) = false).
  { apply not_true_is_false. intros E. apply existsb_exists in E as (y & Hy & Ny). apply In_l in Hy. destruct Hy. congruence. }
  rewrite EX in Sp. destruct Sp as [S1 S2]. apply In_l in S1 as [S1 S1']. split; auto. split; auto. intros y Hy Ny. apply S2. apply In_l. auto.
Qed.

Lemma eqb_val (x y : O) : n_eqb x y = true <-> val S x = val S y /\ n_isnan x = false.
Proof. rewrite (val_eqb _ S), (val_isnan _ S). apply xeqb_true. Qed.

Theorem find_correct (env : stft_env O) rsl (w : nat) a b : has_find env = true ->
  find_lowest_std_dev_period env rsl (Z.of_nat w) = Ok (a, b) ->
  exists k v, b = Z.of_nat k /\ a = (b - Z.of_nat w)%Z /\ window_at w rsl k = Some v /\ n_isnan (rstd env v) = false /\
    forall j u, window_at w rsl j = Some u -> n_isnan (rstd env u) = false ->
      n_leb (rstd env v) (rstd env u) = true /\ (j < k -> n_ltb (rstd env v) (rstd env u) = true).
Proof.
  intros HF. unfold find_lowest_std_dev_period. destruct (Z.ltb_spec (Z.of_nat w) 0); [lia|]. rewrite HF, Nat2Z.id. cbn [negb].
  set (roll := rolling_std env w rsl). set (m := nanmin roll).
  destruct (where_true (map (fun x => n_eqb x m) roll)) as [|k ks] eqn:EW; [discriminate|]. intros E. injection E as <- <-.
  assert (Lr : length roll = length rsl) by apply roll_length.
  assert (Hin : forall i, In i (k :: ks) <-> i < length rsl /\ n_eqb (nget roll i) m = true).
  { intros i. rewrite <- EW, where_true_In, map_length, Lr. split; intros [Hi Q]; split; auto; rewrite (get_map _ n_nan) in * by lia; auto. }
  destruct (proj1 (Hin k) (or_introl eq_refl)) as [Hk Ek].
  assert (First : forall j, j < k -> n_eqb (nget roll j) m = false).
  { intros j Hj. apply not_true_is_false. intros Q. assert (Hj' : In j (k :: ks)) by (apply Hin; split; auto; lia).
    assert (Srt : forall s n p i t, filter p (seq s n) = i :: t -> forall y, In y t -> i < y).
    { clear. intros s n. revert s. induction n as [|n IH]; intros s p i t Q y Hy; [discriminate|]. cbn in Q. destruct (p s).
      - injection Q as <- <-. apply filter_In in Hy as [Hy _]. apply in_seq in Hy. lia.
      - eapply IH; eauto. }
    destruct Hj' as [->|Hj']; [lia|]. unfold where_true in EW. specialize (Srt _ _ _ _ _ EW _ Hj'). lia. }
  apply eqb_val in Ek as [Ev Nk]. pose proof (roll_at env w rsl k Hk) as Rk. fold roll in Rk.
  destruct (window_at w rsl k) as [v|] eqn:Wk; [|rewrite Rk, (isnan_nan S) in Nk; discriminate].
  destruct (nanmin_spec roll) as (_ & _ & Min). { exists (nget roll k). split; auto. apply get_In. lia. }
  exists k, v. rewrite <- Rk. do 4 (split; [auto|]). intros j u Wj Nu.
  assert (Hj : j < length rsl). { unfold window_at in Wj. destruct (Nat.ltb_spec j (length rsl)); auto. rewrite andb_false_r in Wj. discriminate. }
  pose proof (roll_at env w rsl j Hj) as Rj. fold roll in Rj. rewrite Wj in Rj. rewrite <- Rj in *.
  assert (LE : n_leb (nget roll k) (nget roll j) = true).
  { rewrite (val_leb _ S), Ev, <- (val_leb _ S). apply Min; auto. apply get_In. lia. }
  split; auto. intros Hlt. destruct (n_ltb (nget roll k) (nget roll j)) eqn:Q; auto. exfalso.
  apply (ltb_false_leb S) in Q; auto. specialize (First j Hlt). apply not_true_iff_false in First. apply First. apply eqb_val. split; auto.
  rewrite <- Ev. rewrite (val_leb _ S) in LE, Q. rewrite (val_isnan _ S) in Nk, Nu.
  destruct (val S (nget roll k)), (val S (nget roll j)); cbn in *; try discriminate; auto.
  f_equal. xcases; lra.
Qed.

Theorem find_exists (env : stft_env O) rsl (w : nat) : has_find env = true ->
  (exists j u, window_at w rsl j = Some u /\ n_isnan (rstd env u) = false) ->
  exists a b, find_lowest_std_dev_period env rsl (Z.of_nat w) = Ok (a, b).
Proof.
  intros HF (j & u & Wj & Nu). unfold find_lowest_std_dev_period. destruct (Z.ltb_spec (Z.of_nat w) 0); [lia|]. rewrite HF, Nat2Z.id. cbn [negb].
  assert (Hj : j < length rsl). { unfold window_at in Wj. destruct (Nat.ltb_spec j (length rsl)); auto. rewrite andb_false_r in Wj. discriminate. }
  pose proof (roll_at env w rsl j Hj) as Rj. rewrite Wj in Rj. set (roll := rolling_std env w rsl) in *.
  assert (Lr : length roll = length rsl) by apply roll_length.
  destruct (nanmin_spec roll) as (Hin & Nm & _). { exists (nget roll j). rewrite Rj. split; auto. rewrite <- Rj. apply get_In. lia. }
  apply (In_get n_nan) in Hin as (i & Hi & Ei).
  assert (X : In i (where_true (map (fun x => n_eqb x (nanmin roll)) roll))).
  { apply where_true_In. rewrite map_length. split; auto. rewrite (get_map _ n_nan) by auto. rewrite Ei. apply eqb_val. auto. }
  destruct (where_true _) as [|k ks]; [destruct X|]. eauto.
Qed.
Theorem find_none (env : stft_env O) rsl (w : nat) : has_find env = true ->
  (forall j u, window_at w rsl j = Some u -> n_isnan (rstd env u) = true) ->
  find_lowest_std_dev_period env rsl (Z.of_nat w) = Err IndexError.
Proof.
  intros HF H. destruct (find_lowest_std_dev_period env rsl (Z.of_nat w)) as [[a b]|e] eqn:E.
  - destruct (find_correct env rsl w a b HF E) as (k & v & _ & _ & Wk & Nk & _). rewrite (H k v Wk) in Nk. discriminate.
  - unfold find_lowest_std_dev_period in E. destruct (Z.ltb_spec (Z.of_nat w) 0); [lia|]. rewrite HF in E. cbn [negb] in E.
    destruct (where_true _); [congruence|discriminate].
Qed.
Theorem find_removed (env : stft_env O) rsl (w : nat) : has_find env = false -> find_lowest_std_dev_period env rsl (Z.of_nat w) = Err AttributeError.
Proof. intros HF. unfold find_lowest_std_dev_period. destruct (Z.ltb_spec (Z.of_nat w) 0); [lia|]. rewrite HF. reflexivity. Qed.

Lemma window_at_inv w (x : list O) k v : window_at w x k = Some v -> w <= k + 1 /\ k < length x /\ v = map (nget x) (seq (k + 1 - w) w).
Proof.
  unfold window_at. destruct (Nat.leb_spec w (k + 1)), (Nat.ltb_spec k (length x)); cbn [andb]; try discriminate. destruct (forallb _ _); [|discriminate].
  intros E. injection E as <-. auto.
Qed.
(** the slice start:stop of any array as long as the series, against the window *)
Theorem find_slice (env : stft_env O) rsl (w : nat) a b : has_find env = true -> 0 < w ->
  find_lowest_std_dev_period env rsl (Z.of_nat w) = Ok (a, b) ->
  exists k, b = Z.of_nat k /\ window_at w rsl k <> None /\
   (w <= k -> a = Z.of_nat (k - w) /\ py_slice a b rsl = map (nget rsl) (seq (k - w) w)) /\
   (k + 1 = w -> a = (-1)%Z /\ py_slice a b rsl = []).
Proof.
  intros HF Hw E. destruct (find_correct env rsl w a b HF E) as (k & v & -> & -> & Wk & _ & _). exists k. split; auto. split; [congruence|].
  apply window_at_inv in Wk as (H1 & H2 & _). split; intros H.
  - assert (Ea : (Z.of_nat k - Z.of_nat w)%Z = Z.of_nat (k - w)) by lia. split; auto. rewrite Ea. unfold py_slice. rewrite !py_bound_nat, !Nat.min_l by lia.
    replace k with (k - w + w) at 2 by lia. apply slice_seq. lia.
  - assert (Ea : (Z.of_nat k - Z.of_nat w = -1)%Z) by lia. split; auto. rewrite Ea. unfold py_slice. rewrite py_bound_nat, Nat.min_l by lia. unfold slice.
    replace (k - py_bound (length rsl) (-1)) with 0; [reflexivity|]. unfold py_bound. cbn [Z.ltb Z.compare]. lia.
Qed.
(** if the first window is the driest, everything is classified dry *)
Theorem stft_first_window (env : stft_env O) rsl wl thr fd (w : nat) window Pxx fo P f c b :
  uses env rsl wl window Pxx fo P f -> P <> [] -> rect c P -> length f = length P -> c <= length rsl -> has_find env = true -> 0 < w ->
  find_lowest_std_dev_period env rsl (Z.of_nat w) = Ok ((-1)%Z, b) ->
  exists r, stft_classification env rsl wl thr fd None None (Some (Z.of_nat w)) false window Pxx fo = Ok r /\ length (r_wet r) = length rsl /\
    forall t, t < length rsl -> get false (r_wet r) t = false.
Proof.
  intros U NE R Lf H HF Hw EF. destruct (uses_spec _ _ _ _ _ _ _ _ U) as [N E]. unfold stft_classification. rewrite E. cbn [bind fst snd].
  destruct (extend_ok rsl P N c NE R H) as (X & EX & LX & HX). rewrite EX. cbn [bind dry_period]. rewrite EF. cbn [bind fst snd].
  destruct (find_correct env rsl w (-1)%Z b HF EF) as (k & v & Eb & Ea & Wk & _ & _). apply window_at_inv in Wk as (_ & Hk & _).
  destruct (classify_ok S X f (-1)%Z b thr fd (length rsl) (power P (length rsl) c)) as (r & Er & L1 & _ & _ & _ & _ & Ht).
  - intros ->. destruct P; [congruence|discriminate].
  - lia.
  - intros i Hi. apply HX. lia.
  - exists r. split; [exact Er|]. split; auto. intros t Hlt. destruct (Ht t Hlt) as [_ W]. rewrite W. apply (ltb_nan_r S), (sub_nan_l S), (mean_all_nan S).
    intros x Hx. apply in_map_iff in Hx as (i & <- & _). apply (div_nan_r S). unfold nanmean.
    assert (Q : py_slice (-1) b (map (power P (length rsl) c i) (seq 0 (length rsl))) = []).
    { unfold py_slice. rewrite map_length, seq_length, Eb, py_bound_nat. unfold slice.
      replace (Nat.min k (length rsl) - py_bound (length rsl) (-1)) with 0; [reflexivity|]. unfold py_bound. cbn [Z.ltb Z.compare]. lia. }
    rewrite Q. apply (mean_nil S).
Qed.
End Find.

Lemma find_negative {O : numops} (env : stft_env O) rsl (w : Z) : (w < 0)%Z -> find_lowest_std_dev_period env rsl w = Err ValueError.
Proof. intros H. unfold find_lowest_std_dev_period. destruct (Z.ltb_spec w 0); [reflexivity|lia]. Qed.
