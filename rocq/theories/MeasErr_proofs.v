(** * How measurement errors pass through the documented chain *)
From Coq Require Import Reals Lra Lia ZArith Bool Psatz List String.
From Flocq Require Import Core.
From Verif Require Import Base Num NumF64 NumList Libm Libm64 RealSpec RealStat Ulp64 Baseline_model Baseline_spec Baseline_proofs Baseline_proofs2 Schleiss_spec
  KR_model KR_spec Chain_model HaversineFloat_spec FloatErr_spec StatsErr_proofs RainFloat_spec ChainErr_spec ChainErr_proofs ChainErr_proofs2
  Shift_spec BaselineSym_spec MeasErr_spec BaselineErr_proofs.
Import ListNotations.
Local Open Scope R_scope.
Local Notation length := List.length.

Lemma dry_not_one (wet : list F64) i : ~ flagged_wet wet i -> ~ flag_is_one wet i.
Proof.
  unfold flagged_wet, flag_is_one. intros D E. apply not_false_is_true in D. rewrite (val_eqb _ F64sem) in D, E.
  rewrite (val_ofZ _ F64sem) in D, E by (simpl; discriminate). apply xeqb_true in D as [D _], E as [E _]. rewrite D in E. injection E as E. lra.
Qed.

Section M.
Variables (wet : list F64) (n : nat) (q : R) (T T' B B' : list R).
Hypothesis N1 : (1 <= n)%nat.
Hypothesis HQ : within q T T'.
Hypothesis EB : exact_baseline T wet n B.
Hypothesis EB' : exact_baseline T' wet n B'.
Notation at_start i := ((i < n)%nat \/ ~ flagged_wet wet i).

Lemma start_dec i : at_start i \/ ((n <= i)%nat /\ flagged_wet wet i).
Proof using. clear. destruct (le_lt_dec n i); [|auto]. destruct (flag_dec wet i); auto. Qed.

Lemma base_near i : (i < length T)%nat -> Rabs (rget B' i - rget B i) <= q.
Proof using N1 HQ EB EB'.
  destruct HQ as (LT & Q). destruct EB as (L & H). destruct EB' as (L' & H'). rewrite LT in *.
  induction i as [i IH] using lt_wf_ind. intros Hi. destruct (H i Hi) as (A1 & A2 & A3). destruct (H' i Hi) as (C1 & C2 & C3).
  destruct (start_dec i) as [S|(S1 & S2)]; [rewrite A1, C1 by auto; auto|].
  destruct (flag_dec wet (i - 1)) as [G|G]; [rewrite A2, C2 by auto; apply IH; lia|]. rewrite A3, C3 by auto. apply rmean_close.
  - intros E. apply (f_equal (@length R)) in E. rewrite slice_length in E by lia. simpl in E. lia.
  - apply (Forall2_get _ 0 0); [rewrite !slice_length; lia|]. rewrite slice_length by lia. intros j Hj. rewrite !get_slice by lia. apply IH; lia.
Qed.

Section W.
Variables (top c : R) (W W' : list R).
Hypothesis (Ht : 0 <= top) (Hc : 0 <= c <= 1).
Hypothesis EW : exact_waa T B wet top c W.
Hypothesis EW' : exact_waa T' B' wet top c W'.

Lemma waa_start S V D i : length V = length S -> exact_baseline S wet n D -> exact_waa S D wet top c V -> (i < length S)%nat -> at_start i -> rget V i = 0.
Proof using N1 Ht Hc.
  clear EW EW' EB EB' HQ. intros LV (L & H) (_ & Z & K). induction i as [|i IH]; intros Hi S0; [apply Z; lia|].
  destruct (K (Datatypes.S i) ltac:(lia)) as (K1 & K2). destruct (H _ Hi) as (A1 & _). specialize (A1 S0). replace (Datatypes.S i - 1)%nat with i in K2 by lia.
  assert (M0 : Rmin (rget S (Datatypes.S i) - rget D (Datatypes.S i)) top = 0) by (rewrite A1, Rminus_eq_0; apply Rmin_left; auto).
  destruct (Bool.bool_dec (n_eqb (get n_nan wet (Datatypes.S i)) (n_ofZ 1)) true) as [E|E]; [|rewrite K1 by exact E; exact M0].
  rewrite (K2 E), M0. destruct S0 as [S0|S0]; [|exfalso; exact (dry_not_one wet _ S0 E)].
  rewrite IH by (try lia; left; lia). rewrite Rmin_left; [reflexivity|]. rewrite Rplus_0_l, Rminus_0_r. apply Rmult_le_pos; lra.
Qed.

Lemma waa_near i : (i < length T)%nat -> let beta := rget B' i - rget B i in
  Rmin 0 (- q - beta) <= rget W' i - rget W i <= Rmax 0 (q - beta).
Proof using N1 HQ EB EB' Ht Hc EW EW'.
  destruct HQ as (LT & Q). pose proof EW as (LW & _ & K). pose proof EW' as (LW' & _ & K'). pose proof EB as (_ & H). pose proof EB' as (_ & H').
  assert (ZZ : forall x y, x = 0 -> y = 0 -> forall a b, Rmin 0 a <= x - y <= Rmax 0 b).
  { intros x y -> -> a b. rewrite Rminus_0_r. split; [apply Rmin_l|apply Rmax_l]. }
  induction i as [|i IH]; intros Hi; cbv zeta.
  { apply ZZ; [apply (waa_start T' W' B')|apply (waa_start T W B)]; auto; try lia; left; lia. }
  destruct (start_dec (Datatypes.S i)) as [S|(S1 & S2)].
  { apply ZZ; [apply (waa_start T' W' B')|apply (waa_start T W B)]; auto; lia. }
  set (beta := rget B' (Datatypes.S i) - rget B (Datatypes.S i)). pose proof (Q _ Hi) as QI. apply Rabs_le_inv in QI.
  (* the interval contains the error of the previous step *)
  assert (P : Rmin 0 (- q - beta) <= rget W' i - rget W i <= Rmax 0 (q - beta)).
  { destruct (flag_dec wet i) as [F|F].
    - specialize (IH ltac:(lia)). cbv zeta in IH. unfold beta. destruct (H _ Hi) as (_ & A2 & _). destruct (H' (Datatypes.S i) ltac:(lia)) as (_ & C2 & _).
      replace (Datatypes.S i - 1)%nat with i in * by lia. rewrite A2, C2 by auto. exact IH.
    - apply ZZ; [apply (waa_start T' W' B')|apply (waa_start T W B)]; auto; try (rewrite LT; lia); try lia. }
  destruct (K (Datatypes.S i) ltac:(lia)) as (K1 & K2). destruct (K' (Datatypes.S i) ltac:(lia)) as (K1' & K2'). replace (Datatypes.S i - 1)%nat with i in * by lia.
  set (x := rget T (Datatypes.S i) - rget B (Datatypes.S i)) in *. set (x' := rget T' (Datatypes.S i) - rget B' (Datatypes.S i)) in *.
  assert (X : - q - beta <= x' - x <= q - beta) by (unfold x, x', beta; lra).
  assert (MM : forall a b a' b' lo hi, lo <= a' - a <= hi -> lo <= b' - b <= hi -> lo <= Rmin a' b' - Rmin a b <= hi).
  { intros a b a' b' lo hi U V. unfold Rmin. destruct (Rle_dec a' b'), (Rle_dec a b); lra. }
  assert (I0 : Rmin 0 (- q - beta) <= 0 <= Rmax 0 (q - beta)) by (split; [apply Rmin_l|apply Rmax_l]).
  assert (I1 : Rmin 0 (- q - beta) <= x' - x <= Rmax 0 (q - beta)) by (pose proof (Rmin_r 0 (- q - beta)); pose proof (Rmax_r 0 (q - beta)); lra).
  assert (I2 : Rmin 0 (- q - beta) <= Rmin x' top - Rmin x top <= Rmax 0 (q - beta)) by (apply MM; [exact I1|rewrite Rminus_eq_0; exact I0]).
  destruct (Bool.bool_dec (n_eqb (get n_nan wet (Datatypes.S i)) (n_ofZ 1)) true) as [E|E]; [|rewrite K1, K1' by exact E; exact I2].
  rewrite (K2 E), (K2' E). apply MM; [exact I2|].
  replace (rget W' i + c * (top - rget W' i) - (rget W i + c * (top - rget W i))) with ((1 - c) * (rget W' i - rget W i)) by ring.
  set (lo := Rmin 0 (- q - beta)) in *. set (hi := Rmax 0 (q - beta)) in *. split; nra.
Qed.

Lemma atten_near i : (i < length T)%nat -> Rabs ((rget T' i - rget B' i - rget W' i) - (rget T i - rget B i - rget W i)) <= 2 * q.
Proof using N1 HQ EB EB' Ht Hc EW EW'.
  intros Hi. pose proof (base_near i Hi) as BN. destruct HQ as (LT & Q). pose proof EW as (LW & _ & K). pose proof EW' as (LW' & _ & K'). pose proof EB as (_ & H). pose proof EB' as (_ & H').
  pose proof (Q _ Hi) as QI. assert (Q0 : 0 <= q) by (eapply Rle_trans; [apply Rabs_pos|exact QI]). apply Rabs_le_inv in QI, BN.
  destruct (start_dec i) as [S|(S1 & S2)].
  { rewrite (waa_start T' W' B'), (waa_start T W B) by (auto; lia). destruct (H i Hi) as (A1 & _). destruct (H' i ltac:(lia)) as (C1 & _). rewrite A1, C1 by auto. rewrite !Rminus_eq_0, Rabs_R0. lra. }
  destruct (K i ltac:(lia)) as (K1 & K2). destruct (K' i ltac:(lia)) as (K1' & K2').
  set (x := rget T i - rget B i) in *. set (x' := rget T' i - rget B' i) in *. set (beta := rget B' i - rget B i) in *.
  assert (X : - q - beta <= x' - x <= q - beta) by (unfold x, x', beta; lra).
  assert (MM : forall a b a' b' lo hi, lo <= a' - a <= hi -> lo <= b' - b <= hi -> lo <= Rmin a' b' - Rmin a b <= hi).
  { intros a b a' b' lo hi U V. unfold Rmin. destruct (Rle_dec a' b'), (Rle_dec a b); lra. }
  (* x - min (x, g) = max (0, x - g) *)
  assert (D : forall g g', - (2 * q) <= (x' - g') - (x - g) <= 2 * q -> Rabs ((x' - Rmin x' g') - (x - Rmin x g)) <= 2 * q).
  { intros g g' G. apply Rabs_le. unfold Rmin. destruct (Rle_dec x' g'), (Rle_dec x g); lra. }
  destruct (Bool.bool_dec (n_eqb (get n_nan wet i) (n_ofZ 1)) true) as [E|E]; [|rewrite K1, K1' by exact E; apply D; lra].
  rewrite (K2 E), (K2' E).
  rewrite <- !Rmin_assoc. apply D.
  assert (P : Rmin 0 (- q - beta) <= rget W' (i - 1) - rget W (i - 1) <= Rmax 0 (q - beta)).
  { destruct (flag_dec wet (i - 1)) as [F|F].
    - unfold beta. destruct (H i Hi) as (_ & A2 & _). destruct (H' i ltac:(lia)) as (_ & C2 & _). rewrite A2, C2 by auto. apply waa_near. lia.
    - rewrite (waa_start T' W' B'), (waa_start T W B) by (auto; lia). rewrite Rminus_0_r. split; [apply Rmin_l|apply Rmax_l]. }
  assert (I0 : Rmin 0 (- q - beta) <= 0 <= Rmax 0 (q - beta)) by (split; [apply Rmin_l|apply Rmax_l]).
  assert (G : Rmin 0 (- q - beta) <= Rmin top (rget W' (i - 1) + c * (top - rget W' (i - 1))) - Rmin top (rget W (i - 1) + c * (top - rget W (i - 1))) <= Rmax 0 (q - beta)).
  { apply MM; [rewrite Rminus_eq_0; exact I0|].
    replace (rget W' (i - 1) + c * (top - rget W' (i - 1)) - (rget W (i - 1) + c * (top - rget W (i - 1)))) with ((1 - c) * (rget W' (i - 1) - rget W (i - 1))) by ring.
    set (lo := Rmin 0 (- q - beta)) in *. set (hi := Rmax 0 (q - beta)) in *. split; nra. }
  revert G. unfold Rmin at 1, Rmax. destruct (Rle_dec 0 (- q - beta)), (Rle_dec 0 (q - beta)); intros G; lra.
Qed.
End W.
End M.

(** ** the chain in binary64 on a measured record, against the exact chain on the true one *)
Theorem chain_measured (L : libm F64) cubic e clipped trsl wet Tm T q n M fm dt tau top vdt vtau (k : kr_args F64) a b va vb vl vm B W :
  pow_accurate L e -> pow_mono L -> 0 <= e <= / 1000 ->
  (1 <= n)%nat -> are_nums trsl Tm -> within q T Tm -> length wet = length trsl -> INR n <= 2 ^ 20 -> INR n * INR (length trsl) <= 2 ^ 30 ->
  1 <= M <= 2 ^ 100 -> (forall v, In v Tm -> Rabs v <= M) ->
  is_num fm top -> is_num dt vdt -> is_num tau vtau -> 0 <= top <= M -> / 2 ^ 60 <= vdt <= 2 ^ 60 -> / 2 ^ 60 <= vtau <= 2 ^ 60 -> 3 * vdt / vtau <= 1 ->
  kr_f k = None -> kr_pol k = None -> kr_a k = Some (CScalar a) -> kr_b k = Some (CScalar b) ->
  is_num a va -> is_num b vb -> is_num (kr_len k) vl -> is_num (kr_min k) vm ->
  / 2 ^ 60 <= va <= 2 ^ 60 -> / 2 <= vb <= 2 -> / 2 ^ 60 <= vl <= 2 ^ 60 -> / 2 ^ 18 <= vm -> 5 * M <= va * Rpower (2 ^ 20) vb * vl ->
  exact_baseline T wet n B -> exact_waa T B wet top (3 * vdt / vtau) W ->
  exists R, chain L cubic clipped trsl wet n fm dt tau k = Ok R /\ length R = length trsl /\ forall i, (i < length trsl)%nat ->
    let A := rget T i - rget B i - rget W i in
    let d := 2 * q + INR (i + 1) * (INR n * M / 2 ^ 47) in
    rain_between ((1 - (e + / 2 ^ 48)) * law va vb vl (A - d)) ((1 + (e + / 2 ^ 48)) * law va vb vl (A + d)) vm (get n_nan R i).
Proof.
  intros PA PM E N1 HT HQ LW N20 N30 M1 BT im id it Htop Hdt Htau Hq K1 K2 K3 K4 ia ib il ir ra rb rl rm top5 EB EW.
  destruct (baseline_built Tm wet n N1) as (B' & EB'). destruct (waa_built Tm B' wet top (3 * vdt / vtau)) as (W' & EW').
  destruct (chain_close L cubic e clipped trsl wet Tm n M fm dt tau top vdt vtau k a b va vb vl vm B' W') as (R & ER & LR & H); auto.
  exists R. split; [exact ER|]. split; [exact LR|]. intros i Hi A d. specialize (H i Hi). cbv zeta in H. set (d0 := INR (i + 1) * (INR n * M / 2 ^ 47)) in *.
  assert (LT : length trsl = length T). { rewrite (BaselineErr_proofs.nums_length _ _ HT). apply HQ. }
  assert (P60 : 0 < / 2 ^ 60) by (apply Rinv_0_lt_compat, pow_lt; lra).
  assert (HC : 0 <= 3 * vdt / vtau <= 1). { split; [|exact Hq]. apply Rlt_le, Rdiv_lt_0_compat; lra. }
  pose proof (atten_near wet n q T Tm B B' N1 HQ EB EB' top (3 * vdt / vtau) W W' (proj1 Htop) HC EW EW' i ltac:(lia)) as D. fold A in D. apply Rabs_le_inv in D.
  set (A' := rget Tm i - rget B' i - rget W' i) in *.
  assert (H48 : 0 < / 2 ^ 48 <= / 1000) by (split; [apply Rinv_0_lt_compat, pow_lt; lra|simpl; lra]).
  assert (LO : (1 - (e + / 2 ^ 48)) * law va vb vl (A - d) <= (1 - (e + / 2 ^ 48)) * law va vb vl (A' - d0)).
  { apply Rmult_le_compat_l; [lra|]. apply law_mono; try lra. unfold d. fold d0. lra. }
  assert (HI : (1 + (e + / 2 ^ 48)) * law va vb vl (A' + d0) <= (1 + (e + / 2 ^ 48)) * law va vb vl (A + d)).
  { apply Rmult_le_compat_l; [lra|]. apply law_mono; try lra. unfold d. fold d0. lra. }
  destruct H as (v & V & C1 & C2 & C3 & C4). exists v. split; [exact V|]. split; [lra|]. split; [destruct C2; [auto|right; lra]|]. split; [|intros X; apply C4; lra].
  intros X. specialize (C3 ltac:(lra)). lra.
Qed.
