(** * Proofs for MinMaxWin_props.v *)
From Coq Require Import List ZArith Bool Lia.
From Verif Require Import Base Num NumList NpOps MinMax_model Stft_model TfInfer_model TorchInfer_model MinMaxWin_model.
Import ListNotations.
Local Open Scope nat_scope.

Lemma slice_clip {A} a b (l : list A) : slice (Nat.min (length l) a) (Nat.min (length l) b) l = slice a b l.
Proof.
  unfold slice. destruct (Nat.le_gt_cases (length l) a) as [H|H].
  - rewrite (Nat.min_l (length l) a) by lia. rewrite !(skipn_all2 l) by lia. rewrite !firstn_nil. reflexivity.
  - rewrite (Nat.min_r (length l) a) by lia. destruct (Nat.le_gt_cases (length l) b) as [K|K].
    + rewrite (Nat.min_l (length l) b) by lia. rewrite !firstn_all2 by (rewrite skipn_length; lia). reflexivity.
    + rewrite (Nat.min_r (length l) b) by lia. reflexivity.
Qed.
Lemma py_bound_pos n i : (0 <= i)%Z -> py_bound n i = Nat.min n (Z.to_nat i).
Proof. intros H. unfold py_bound. destruct (Z.ltb_spec i 0); lia. Qed.
Lemma py_slice_nat {A} a b (l : list A) : py_slice (Z.of_nat a) (Z.of_nat b) l = slice a b l.
Proof. unfold py_slice. rewrite !py_bound_pos, !Nat2Z.id by lia. apply slice_clip. Qed.

Section Proofs.
Context {O : numops}.
Lemma loop_nat (Ac_max Ac_min : list O) (w : nat) n : forall (i : nat) (st : list O), w <= i -> i + n <= length Ac_max -> length st = length Ac_max ->
  for_range_z (Z.of_nat i) n
    (fun i Ar_max =>
       do x <- py_index Ac_max i;
       do m <- np_min (py_slice (i - Z.of_nat w) (i + 1) Ac_min);
       match np_index (length Ar_max) i with
       | Some j => Ok (upd j (n_sub x m) Ar_max)
       | None => Err IndexError
       end) st =
  for_range_res (seq i n)
    (fun i Ar_max =>
       do m <- np_min (slice (i - w) (i + 1) Ac_min);
       Ok (upd i (n_sub (nget Ac_max i) m) Ar_max)) st.
Proof.
  induction n as [|n IH]; intros i st Hw Hi Hs; [reflexivity|]. cbn [for_range_z seq for_range_res].
  assert (I : forall k, length Ac_max = k -> np_index k (Z.of_nat i) = Some i).
  { intros k <-. unfold np_index. destruct (Z.leb_spec 0 (Z.of_nat i)), (Z.ltb_spec (Z.of_nat i) (Z.of_nat (length Ac_max))); cbn [andb]; try lia. rewrite Nat2Z.id. reflexivity. }
  unfold py_index. rewrite (I _ eq_refl). rewrite (nth_error_nth' Ac_max n_nan) by lia. cbn [bind].
  replace (Z.of_nat i - Z.of_nat w)%Z with (Z.of_nat (i - w)) by lia. replace (Z.of_nat i + 1)%Z with (Z.of_nat (i + 1)) by lia. rewrite py_slice_nat.
  destruct (np_min (slice (i - w) (i + 1) Ac_min)) as [m|e]; [|reflexivity]. cbn [bind]. rewrite (I (length st)) by congruence. cbn [bind].
  replace (Z.of_nat (i + 1)) with (Z.of_nat (S i)) by lia. apply IH; try lia. rewrite upd_length. assumption.
Qed.
Lemma loop_length (Ac_max Ac_min : list O) (w : nat) is : forall st r, for_range_res is
    (fun i Ar_max =>
       do m <- np_min (slice (i - w) (i + 1) Ac_min);
       Ok (upd i (n_sub (nget Ac_max i) m) Ar_max)) st = Ok r -> length r = length st.
Proof.
  induction is as [|i is IH]; intros st r H; cbn [for_range_res] in H; [congruence|].
  destruct (np_min (slice (i - w) (i + 1) Ac_min)) as [m|e]; cbn [bind] in H; [|discriminate]. apply IH in H. rewrite upd_length in H. assumption.
Qed.
Lemma int_nat tx_min tx_max rx_min rx_max (gT gR : O) w :
  calc_A_min_max_int tx_min tx_max rx_min rx_max gT gR (Z.of_nat w) = calc_A_min_max tx_min tx_max rx_min rx_max gT gR w.
Proof.
  unfold calc_A_min_max_int, calc_A_min_max. destruct (bcast2 n_sub tx_max rx_min) as [d1|e]; [|reflexivity]. cbn [bind].
  destruct (bcast2 n_sub tx_min rx_max) as [d2|e]; [|reflexivity]. cbn [bind]. unfold zero_level. cbv zeta.
  set (A := fill_nan (map _ d1)). set (B := fill_nan (map _ d2)). clearbody A B.
  replace (Z.to_nat (Z.of_nat (length A) - Z.of_nat w)) with (length A - w) by lia.
  destruct (Nat.le_gt_cases (length A) w) as [H|H].
  - replace (length A - w) with 0 by lia. cbn [for_range_z seq for_range_res bind]. do 2 f_equal. f_equal. rewrite py_bound_pos, Nat2Z.id by lia. apply Nat.min_comm.
  - rewrite (loop_nat A B w (length A - w) w) by (try lia; rewrite repeat_length; reflexivity).
    match goal with |- bind ?x _ = bind ?y _ => destruct x as [r|e] end; [|reflexivity]. cbn [bind]. do 2 f_equal. f_equal. rewrite py_bound_pos, Nat2Z.id by lia. apply Nat.min_comm.
Qed.

(** the loop with a window of [- w]: at the latest step -1 has an empty slice *)
Lemma loop_negative (Ac_max Ac_min : list O) (w : nat) n : forall (j : nat) (st : list O), j < w -> w <= length Ac_max -> length st = length Ac_max -> w - j <= n ->
  for_range_z (Z.of_nat j - Z.of_nat w) n
    (fun i Ar_max =>
       do x <- py_index Ac_max i;
       do m <- np_min (py_slice (i - - Z.of_nat w) (i + 1) Ac_min);
       match np_index (length Ar_max) i with
       | Some j => Ok (upd j (n_sub x m) Ar_max)
       | None => Err IndexError
       end) st = Err ValueError.
Proof.
  induction n as [|n IH]; intros j st Hj Hw Hs Hn; [lia|]. cbn [for_range_z].
  assert (I : forall k, length Ac_max = k -> np_index k (Z.of_nat j - Z.of_nat w) = Some (j + k - w)).
  { intros k <-. unfold np_index. destruct (Z.leb_spec 0 (Z.of_nat j - Z.of_nat w)); [lia|]. cbn [andb].
    destruct (Z.leb_spec (- Z.of_nat (length Ac_max)) (Z.of_nat j - Z.of_nat w)), (Z.ltb_spec (Z.of_nat j - Z.of_nat w) 0); cbn [andb]; try lia. f_equal. lia. }
  unfold py_index. rewrite (I _ eq_refl). rewrite (nth_error_nth' Ac_max n_nan) by lia. cbn [bind].
  destruct (Nat.eq_dec (S j) w) as [E|E].
  - replace (Z.of_nat j - Z.of_nat w + 1)%Z with (Z.of_nat 0) by lia. replace (Z.of_nat j - Z.of_nat w - - Z.of_nat w)%Z with (Z.of_nat j) by lia. rewrite py_slice_nat. reflexivity.
  - match goal with |- context [np_min ?l] => destruct (np_min l) as [m|e] eqn:M end.
    + cbn [bind]. rewrite (I (length st)) by congruence. cbn [bind]. replace (Z.of_nat j - Z.of_nat w + 1)%Z with (Z.of_nat (S j) - Z.of_nat w)%Z by lia.
      apply IH; try lia. rewrite upd_length. assumption.
    + unfold np_min in M. destruct (py_slice _ _ Ac_min); [|discriminate]. injection M as <-. reflexivity.
Qed.
Lemma zero_level_negative (Ac_max Ac_min : list O) window : (window < 0)%Z ->
  zero_level Ac_max Ac_min window = Err (if (window <? - Z.of_nat (length Ac_max))%Z then IndexError else ValueError).
Proof.
  intros H. unfold zero_level. set (w := Z.to_nat (- window)). assert (Ew : window = (- Z.of_nat w)%Z) by (unfold w; lia). clearbody w. subst window.
  destruct (Z.ltb_spec (- Z.of_nat w) (- Z.of_nat (length Ac_max))).
  - destruct (Z.to_nat (Z.of_nat (length Ac_max) - - Z.of_nat w)) as [|n] eqn:E; [lia|]. cbn [for_range_z]. unfold py_index at 1.
    assert (I : np_index (length Ac_max) (- Z.of_nat w) = None).
    { unfold np_index. destruct (Z.leb_spec 0 (- Z.of_nat w)); [lia|]. cbn [andb]. destruct (Z.leb_spec (- Z.of_nat (length Ac_max)) (- Z.of_nat w)); cbn [andb]; [lia|reflexivity]. }
    rewrite I. reflexivity.
  - pose proof (loop_negative Ac_max Ac_min w (Z.to_nat (Z.of_nat (length Ac_max) - - Z.of_nat w)) 0 (repeat zero (length Ac_max)) ltac:(lia) ltac:(lia) (repeat_length _ _) ltac:(lia)) as L.
    change (Z.of_nat 0 - Z.of_nat w)%Z with (- Z.of_nat w)%Z in L. rewrite L. reflexivity.
Qed.
Lemma fill_nan_length (l : list O) : length (fill_nan l) = length l.
Proof. unfold fill_nan. rewrite mask_fill_length by (rewrite ?map_length; reflexivity). reflexivity. Qed.
Lemma int_negative tx_min tx_max rx_min rx_max (gT gR : O) window n : (window < 0)%Z ->
  length tx_min = n -> length tx_max = n -> length rx_min = n -> length rx_max = n ->
  calc_A_min_max_int tx_min tx_max rx_min rx_max gT gR window = Err (if (window <? - Z.of_nat n)%Z then IndexError else ValueError).
Proof.
  intros H A B C D. unfold calc_A_min_max_int, bcast2. rewrite A, B, C, D, Nat.eqb_refl. cbn [bind]. rewrite zero_level_negative by assumption.
  rewrite fill_nan_length, map_length, map2_length by congruence. rewrite B. reflexivity.
Qed.
End Proofs.
