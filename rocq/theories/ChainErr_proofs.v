(** * Rounding errors of the documented chain *)
From Coq Require Import Reals Lra Lia ZArith Bool Psatz List String.
From Flocq Require Import Core Relative IEEE754.BinarySingleNaN.
From Verif Require Import Base Num NumF64 NumList Libm Libm64 RealSpec RealStat Ulp64 Baseline_model Baseline_spec Baseline_proofs Baseline_proofs2 Schleiss_model Schleiss_spec Schleiss_proofs
  KR_model KR_spec KR_proofs Chain_model Chain_spec Chain_proofs
  HaversineFloat_spec HaversineFloat_proofs HaversineFloat_proofs2 HaversineAcc_proofs FloatErr_spec FloatErr_proofs IdwFloat_proofs StatsErr_spec StatsErr_proofs MinMaxFloat_proofs
  RainFloat_spec RainFloat_proofs BaselineErr_proofs Grid64Err_proofs ChainErr_spec.
Import ListNotations.
Local Open Scope R_scope.
Local Arguments bpow : simpl never.
Local Notation length := List.length.

(** ** the exact run exists and is unique *)
Fixpoint build (f : list R -> R) (k : nat) : list R :=
  match k with O => [] | Datatypes.S k => build f k ++ [f (build f k)] end.
Lemma build_length f k : length (build f k) = k.
Proof. induction k; [reflexivity|]. cbn [build]. rewrite app_length, IHk. simpl. lia. Qed.
Lemma build_firstn f k i : (i <= k)%nat -> firstn i (build f k) = build f i.
Proof.
  induction k; intros H; [replace i with O by lia; reflexivity|]. destruct (Nat.eq_dec i (Datatypes.S k)) as [->|N].
  - apply firstn_all2. rewrite build_length. lia.
  - cbn [build]. rewrite firstn_app, build_length. replace (i - k)%nat with O by lia. cbn [firstn]. rewrite app_nil_r. apply IHk. lia.
Qed.
Lemma firstn_get {A} (d : A) l i k : (i < k)%nat -> get d (firstn k l) i = get d l i.
Proof. intros H. unfold get. apply nth_firstn_lt. auto. Qed.
Lemma build_get f k i : (i < k)%nat -> rget (build f k) i = f (build f i).
Proof.
  intros H. unfold rget. rewrite <- (firstn_get 0 (build f k) i (Datatypes.S i)) by lia. rewrite build_firstn by lia. cbn [build].
  unfold get. rewrite app_nth2 by (rewrite build_length; lia). rewrite build_length, Nat.sub_diag. reflexivity.
Qed.
Lemma slice_firstn {A} (l : list A) s e : (s <= e)%nat -> slice s e (firstn e l) = slice s e l.
Proof. intros H. unfold slice. rewrite firstn_skipn_comm. rewrite firstn_firstn. rewrite firstn_skipn_comm. f_equal. f_equal. lia. Qed.

Lemma baseline_built T (wet : list F64) n : (1 <= n)%nat -> exists B, exact_baseline T wet n B.
Proof.
  intros N. set (fl := fun i => negb (n_eqb (get n_nan wet i) (n_ofZ 0))).
  set (f := fun p : list R => let i := length p in
    if (Nat.ltb i n || negb (fl i))%bool then rget T i else if fl (i - 1)%nat then rget p (i - 1) else rmean (slice (i - n) i p)).
  exists (build f (length T)). split; [apply build_length|]. intros i Hi.
  assert (FL : forall j, flagged_wet wet j <-> fl j = true) by (intros j; unfold flagged_wet, fl; destruct (n_eqb _ _); split; intros; auto; discriminate).
  rewrite build_get by auto.
  assert (EF : f (build f i) = if (Nat.ltb i n || negb (fl i))%bool then rget T i else if fl (i - 1)%nat then rget (build f i) (i - 1) else rmean (slice (i - n) i (build f i))) by (unfold f at 1; rewrite build_length; reflexivity).
  rewrite EF. split; [|split].
  - intros [H|H].
    + apply Nat.ltb_lt in H. rewrite H. reflexivity.
    + assert (E : fl i = false) by (apply not_true_is_false; rewrite <- FL; auto). rewrite E, orb_true_r. reflexivity.
  - intros Hn H1 H2. apply FL in H1, H2. rewrite H1, H2. destruct (Nat.ltb_spec i n); [lia|]. cbn [orb negb].
    unfold rget. rewrite <- (firstn_get 0 (build f (length T)) (i - 1) i) by lia. rewrite build_firstn by lia. reflexivity.
  - intros Hn H1 H2. apply FL in H1. assert (E : fl (i - 1)%nat = false) by (apply not_true_is_false; rewrite <- FL; auto). rewrite H1, E. destruct (Nat.ltb_spec i n); [lia|]. cbn [orb negb].
    rewrite <- (slice_firstn (build f (length T))) by lia. rewrite build_firstn by lia. reflexivity.
Qed.
Lemma waa_built T B (wet : list F64) top q : exists W, exact_waa T B wet top q W.
Proof.
  set (f := fun p : list R => let i := length p in match i with O => 0 | _ =>
    let c := Rmin (rget T i - rget B i) top in if n_eqb (get n_nan wet i) (n_ofZ 1) then Rmin c (rget p (i - 1) + q * (top - rget p (i - 1))) else c end).
  exists (build f (length T)). split; [apply build_length|]. split.
  - intros H. rewrite build_get by auto. reflexivity.
  - intros i Hi. rewrite build_get by lia.
    assert (EF : f (build f i) = let c := Rmin (rget T i - rget B i) top in if n_eqb (get n_nan wet i) (n_ofZ 1) then Rmin c (rget (build f i) (i - 1) + q * (top - rget (build f i) (i - 1))) else c).
    { unfold f at 1. rewrite build_length. destruct i; [lia|reflexivity]. }
    rewrite EF. clear EF. cbv zeta. set (k := i) in *.
    unfold flag_is_one. split.
    + intros H. apply not_true_is_false in H. rewrite H. reflexivity.
    + intros H. rewrite H. replace (rget (build f (length T)) (k - 1)) with (rget (build f k) (k - 1)); [reflexivity|]. unfold rget. rewrite <- (firstn_get 0 (build f (length T)) (k - 1) k) by lia. rewrite build_firstn by lia. reflexivity.
Qed.
Lemma list_eq_rget (x y : list R) : length x = length y -> (forall i, (i < length x)%nat -> rget x i = rget y i) -> x = y.
Proof. intros L H. apply (nth_ext _ _ 0 0 L). exact H. Qed.
Lemma slice_eq (x y : list R) s e : (e <= length x)%nat -> length x = length y -> (forall i, (i < e)%nat -> rget x i = rget y i) -> slice s e x = slice s e y.
Proof.
  intros E L H. apply list_eq_rget; [rewrite !slice_length; lia|]. intros i Hi. rewrite slice_length in Hi by auto. unfold rget. rewrite !get_slice by lia. apply H. lia.
Qed.
Lemma flag_dec (wet : list F64) i : flagged_wet wet i \/ ~ flagged_wet wet i.
Proof. unfold flagged_wet. destruct (n_eqb _ _); [right; discriminate|left; reflexivity]. Qed.
Lemma baseline_unique T (wet : list F64) n B B' : (1 <= n)%nat -> exact_baseline T wet n B -> exact_baseline T wet n B' -> B = B'.
Proof.
  intros N [L H] [L' H']. apply list_eq_rget; [congruence|]. rewrite L. intros i. induction i as [i IH] using lt_wf_ind. intros Hi.
  destruct (H i Hi) as (A1 & A2 & A3). destruct (H' i Hi) as (C1 & C2 & C3).
  destruct (le_lt_dec n i) as [Hn|Hn]; [|rewrite A1, C1; auto]. destruct (flag_dec wet i) as [F|F]; [|rewrite A1, C1; auto].
  destruct (flag_dec wet (i - 1)) as [G|G]; [rewrite A2, C2 by auto; apply IH; lia|]. rewrite A3, C3 by auto. f_equal. apply slice_eq; try lia. intros j Hj. apply IH; lia.
Qed.
Lemma waa_unique T B (wet : list F64) top q W W' : exact_waa T B wet top q W -> exact_waa T B wet top q W' -> W = W'.
Proof.
  intros (L & Z & H) (L' & Z' & H'). apply list_eq_rget; [congruence|]. rewrite L. induction i as [|i IH]; intros Hi; [rewrite Z, Z'; auto|].
  destruct (H (Datatypes.S i) ltac:(lia)) as (A1 & A2). destruct (H' (Datatypes.S i) ltac:(lia)) as (C1 & C2). replace (Datatypes.S i - 1)%nat with i in * by lia.
  unfold flag_is_one in *. destruct (n_eqb (get n_nan wet (Datatypes.S i)) (n_ofZ 1)) eqn:E; [rewrite A2, C2, IH by (auto; lia); reflexivity|rewrite A1, C1 by congruence; reflexivity].
Qed.

(** ** baseline *)
Lemma rmean_close (x y : list R) E : x <> [] -> Forall2 (fun a b => Rabs (a - b) <= E) x y -> Rabs (rmean x - rmean y) <= E.
Proof.
  intros NE F. assert (L : length x = length y) by (clear NE; induction F; [reflexivity|cbn [length]; lia]).
  assert (S : Rabs (rsum x - rsum y) <= INR (length x) * E).
  { clear NE L. induction F as [|a b x y H F IH]; [cbn; rewrite Rminus_0_r, Rabs_R0; lra|]. cbn [rsum fold_right length]. fold (rsum x) (rsum y). rewrite S_INR.
    replace (a + rsum x - (b + rsum y)) with ((a - b) + (rsum x - rsum y)) by ring. eapply Rle_trans; [apply Rabs_triang|]. lra. }
  assert (P : 0 < INR (length x)) by (apply lt_0_INR; destruct x; [contradiction|simpl; lia]).
  unfold rmean. rewrite <- L. replace (rsum x / INR (length x) - rsum y / INR (length x)) with ((rsum x - rsum y) / INR (length x)) by (field; lra).
  unfold Rdiv. rewrite Rabs_mult, (Rabs_pos_eq (/ INR (length x))) by (apply Rlt_le, Rinv_0_lt_compat; auto).
  apply Rmult_le_reg_r with (INR (length x)); auto. rewrite Rmult_assoc, Rinv_l, Rmult_1_r by lra. lra.
Qed.

Lemma Forall2_get {A C} (P : A -> C -> Prop) da dc (x : list A) (y : list C) : length x = length y -> (forall i, (i < length x)%nat -> P (get da x i) (get dc y i)) -> Forall2 P x y.
Proof.
  revert y. induction x as [|a x IH]; intros [|c y] L H; try discriminate L; constructor.
  - exact (H 0%nat ltac:(simpl; lia)).
  - apply IH; [simpl in L; lia|]. intros i Hi. exact (H (Datatypes.S i) ltac:(simpl; lia)).
Qed.
Lemma num_get l r i : are_nums l r -> (i < length l)%nat -> is_num (get n_nan l i) (rget r i).
Proof.
  intros H. revert i. induction H as [|x y l l' H F IH]; intros i Hi; [simpl in Hi; lia|]. destruct i as [|i]; [exact H|]. apply (IH i). cbn [length] in Hi. lia.
Qed.

Lemma num_min (x y : F64) a c : is_num x a -> is_num y c -> is_num (py_min x y) (Rmin a c).
Proof.
  intros X Y. unfold py_min. rewrite (num_ltb _ _ _ _ Y X). destruct (Rlt_bool_spec c a); [rewrite Rmin_right by lra; auto|rewrite Rmin_left by lra; auto].
Qed.
Lemma min_close a c a' c' E : Rabs (a - a') <= E -> Rabs (c - c') <= E -> Rabs (Rmin a c - Rmin a' c') <= E.
Proof.
  intros H1 H2. apply Rabs_le_inv in H1, H2. apply Rabs_le. unfold Rmin. destruct (Rle_dec a c), (Rle_dec a' c'); lra.
Qed.

Section Run.
Variables (trsl wet : list F64) (T : list R) (n : nat) (M : R).
Hypothesis N1 : (1 <= n)%nat.
Hypothesis HT : are_nums trsl T.
Hypothesis LW : length wet = length trsl.
Hypothesis N20 : INR n <= 2 ^ 20.
Hypothesis N30 : INR n * INR (length trsl) <= 2 ^ 30.
Hypothesis M1 : 1 <= M <= 2 ^ 100.
Hypothesis BT : forall v, In v T -> Rabs v <= M.
Notation u := u64.
Definition unit : R := INR n * (u * M).

Lemma LT : length T = length trsl.
Proof using HT. symmetry. apply nums_length. exact HT. Qed.
Lemma T_num i : (i < length trsl)%nat -> is_num (get n_nan trsl i) (rget T i) /\ Rabs (rget T i) <= M.
Proof using HT BT.
  intros Hi. split.
  - apply num_get; auto.
  - apply BT. unfold rget, get. apply nth_In. rewrite LT. exact Hi.
Qed.
Lemma uM : 0 < u * M.
Proof using M1. apply Rmult_lt_0_compat; [apply u64_pos|lra]. Qed.
Lemma n1 : 1 <= INR n.
Proof using N1. apply (le_INR 1). exact N1. Qed.
Lemma unit_ge : u * M <= unit.
Proof using N1 M1. unfold unit. pose proof uM. pose proof n1. rewrite <- (Rmult_1_l (u * M)) at 1. apply Rmult_le_compat_r; lra. Qed.
Lemma unit_pos : 0 < unit.
Proof using N1 M1. pose proof unit_ge. pose proof uM. lra. Qed.
Lemma unit_small i : (i < length trsl)%nat -> INR i * unit <= / 2 ^ 23 * M.
Proof using N1 M1 N30.
  clear LW.
  intros Hi. unfold unit. replace (INR i * (INR n * (u * M))) with (INR n * INR i * (u * M)) by ring.
  apply Rle_trans with (2 ^ 30 * (u * M)).
  - apply Rmult_le_compat_r; [apply Rlt_le, uM|]. apply Rle_trans with (2 := N30). apply Rmult_le_compat_l; [pose proof n1; lra|]. apply le_INR. lia.
  - rewrite u64_ipow, <- Rmult_assoc. apply Rmult_le_compat_r; [lra|]. simpl. lra.
Qed.
Lemma op k x : 1 <= k <= 32 -> Rabs x <= k * M -> Rabs x <= big /\ Rabs (rnd64 x - x) <= k * (u * M).
Proof using M1.
  clear LW N1. intros K H. split.
  - apply Rle_trans with (1 := H). apply Rle_trans with (2 ^ 105); [|apply pow_big; lia]. replace (2 ^ 105) with (32 * 2 ^ 100) by (change 105%nat with (5 + 100)%nat; rewrite pow_add; simpl; ring).
    apply Rmult_le_compat; lra.
  - replace (k * (u * M)) with (u * (k * M)) by ring. apply rnd_within; [|exact H]. apply Rle_trans with 1; [|nra]. change 1 with (bpow radix2 0). apply bpow_le. lia.
Qed.

Section Base.
Variables (b : list F64) (B : list R).
Hypothesis Eb : baseline_constant trsl wet n = Ok b.
Hypothesis EB : exact_baseline T wet n B.

Lemma LB : length b = length trsl.
Proof using Eb. exact (proj1 (constant_rec _ _ _ _ Eb)). Qed.
Lemma B_bound i : (i < length trsl)%nat -> Rabs (rget B i) <= M.
Proof using HT BT EB N1.
  clear LW.
  destruct EB as [L H]. induction i as [i IH] using lt_wf_ind. intros Hi. rewrite LT in *. destruct (H i Hi) as (A1 & A2 & A3).
  destruct (le_lt_dec n i) as [Hn|Hn]; [|rewrite A1 by auto; apply T_num; auto]. destruct (flag_dec wet i) as [F|F]; [|rewrite A1 by auto; apply T_num; auto].
  destruct (flag_dec wet (i - 1)) as [G|G]; [rewrite A2 by auto; apply IH; lia|]. rewrite A3 by auto.
  apply rmean_abs_le.
  - intros E. apply (f_equal (@length R)) in E. rewrite slice_length in E by lia. simpl in E. lia.
  - intros v Hv. apply In_get with (d := 0) in Hv as (j & Hj & <-). rewrite slice_length in Hj by lia. rewrite get_slice by lia. apply IH; lia.
Qed.

Lemma base_close i : (i < length trsl)%nat -> exists v, is_num (get n_nan b i) v /\ Rabs (v - rget B i) <= INR i * (8 * unit).
Proof using HT BT EB Eb N1 LW N20 N30 M1.
  pose proof (constant_rec _ _ _ _ Eb) as (LB' & RC). destruct EB as [L H]. pose proof unit_pos as UP. pose proof LT as LT'.
  assert (ZERO : forall k x r, is_num x r -> exists v, is_num x v /\ Rabs (v - r) <= INR k * (8 * unit)).
  { intros k x r X. exists r. split; auto. rewrite Rminus_eq_0, Rabs_R0. apply Rmult_le_pos; [apply pos_INR|lra]. }
  induction i as [i IH] using lt_wf_ind. intros Hi. destruct (RC i Hi) as (R1 & R2). destruct (H i ltac:(lia)) as (A1 & A2 & A3). unfold nget in *.
  destruct (le_lt_dec n i) as [Hn|Hn]; [|rewrite R1, A1 by auto; apply ZERO, T_num; auto]. rewrite (R2 Hn).
  destruct (flag_dec wet i) as [F|F].
  2:{ rewrite A1 by auto. apply (truthy_flag_false (O := F64)) in F; [|lia]. rewrite F. apply ZERO, T_num; auto. }
  pose proof F as F'. apply (truthy_flag (O := F64)) in F'; [|lia]. rewrite F'. destruct (flag_dec wet (i - 1)) as [G|G].
  { rewrite A2 by auto. apply (truthy_flag (O := F64)) in G; [|lia]. rewrite G. destruct (IH (i - 1)%nat) as (v & V & C); [lia|lia|]. exists v. split; auto.
    apply Rle_trans with (1 := C). apply Rmult_le_compat_r; [lra|apply le_INR; lia]. }
  rewrite A3 by auto. pose proof G as G'. apply (truthy_flag_false (O := F64)) in G'; [|lia]. rewrite G'. clear R1 R2 A1 A2 A3 F F' G G'.
  set (l := slice (i - n) i b). assert (LL : length l = n) by (unfold l; rewrite slice_length; lia).
  set (Bs := slice (i - n) i B). assert (LBs : length Bs = n) by (unfold Bs; rewrite slice_length; lia).
  assert (PW : forall j, (j < n)%nat -> exists v, is_num (get n_nan l j) v /\ Rabs (v - get 0 Bs j) <= INR (i - 1) * (8 * unit) /\ Rabs (get 0 Bs j) <= M).
  { intros j Hj. unfold l, Bs. rewrite !get_slice by lia. destruct (IH (i - n + j)%nat) as (v & V & C); [lia|lia|]. exists v. split; auto. split; [|apply B_bound; lia].
    apply Rle_trans with (1 := C). apply Rmult_le_compat_r; [lra|apply le_INR; lia]. }
  assert (AN : are_nums l (map fr l)). { rewrite <- (map_id l) at 1. apply nums_map. intros x I. apply In_get with (d := (n_nan : F64)) in I as (j & Hj & <-). destruct (PW j) as (r & R & _); [unfold F64 in *; lia|]. eauto. }
  assert (NEl : map fr l <> []) by (destruct l; [simpl in LL; lia|discriminate]).
  assert (CL : Forall2 (fun a c => Rabs (a - c) <= INR (i - 1) * (8 * unit)) (map fr l) Bs).
  { apply (Forall2_get _ 0 0); [rewrite map_length; unfold F64 in *; lia|]. intros j Hj. rewrite map_length in Hj. rewrite (get_map _ n_nan) by exact Hj. destruct (PW j) as (v & V & C & _); [unfold F64 in *; lia|]. rewrite (num_fr _ _ V). exact C. }
  pose proof (unit_small (i - 1) ltac:(lia)) as US. pose proof (pos_INR (i - 1)) as I0.
  assert (ES : INR (i - 1) * (8 * unit) <= / 1000 * M). { apply Rle_trans with (8 * (/ 2 ^ 23 * M)); [lra|]. rewrite <- Rmult_assoc. apply Rmult_le_compat_r; [lra|simpl; lra]. }
  assert (AB : forall v, In v (map fr l) -> Rabs v <= 1.001 * M).
  { intros v I. apply in_map_iff in I as (x & <- & I). apply In_get with (d := (n_nan : F64)) in I as (j & Hj & <-). destruct (PW j) as (r & R & C & D); [unfold F64 in *; lia|]. rewrite (num_fr _ _ R).
    replace r with ((r - get 0 Bs j) + get 0 Bs j) by ring. eapply Rle_trans; [apply Rabs_triang|]. lra. }
  assert (P5 : 1.001 * M <= 2 ^ 500). { apply Rle_trans with (2 * 2 ^ 100); [lra|]. change (2 * 2 ^ 100) with (2 ^ 101). apply Rle_pow; [lra|lia]. }
  destruct (mean_abs_close l (map fr l) (n_mean l) NEl ltac:(rewrite map_length; unfold F64 in *; rewrite LL; auto) AN (n_mean_of _)) as (v & V & C); [intros v I; specialize (AB v I); lra|].
  rewrite map_length in C. replace (length l) with n in C by (unfold F64 in *; lia). exists v. split; auto.
  destruct (rmean_abs_le _ _ NEl AB) as (Q & _). pose proof (rmean_close _ _ _ NEl CL) as RCL.
  assert (ER : Rabs (v - rmean (map fr l)) <= 8 * unit).
  { apply Rle_trans with (1 := C). pose proof uM as UM. pose proof n1 as NN. pose proof unit_ge as UG. pose proof u64_pos as U0.
    assert (T3 : 3 * n0 <= u * M). { pose proof three_n0. apply Rle_trans with (/ 2 ^ 1072); auto. apply Rle_trans with (u * 1); [|apply Rmult_le_compat_l; lra]. rewrite Rmult_1_r, u64_ipow. apply ipow_small. lia. }
    assert (4 * INR n * u * rmean (map Rabs (map fr l)) <= 4 * INR n * u * (1.001 * M)) by (apply Rmult_le_compat_l; [apply Rmult_le_pos; lra|auto]).
    unfold unit in *. replace (4 * INR n * u * (1.001 * M)) with (4.004 * (INR n * (u * M))) in H0 by lra. lra. }
  replace (v - rmean Bs) with ((v - rmean (map fr l)) + (rmean (map fr l) - rmean Bs)) by ring. eapply Rle_trans; [apply Rabs_triang|].
  apply Rle_trans with ((INR (i - 1) + 1) * (8 * unit)); [lra|]. apply Rmult_le_compat_r; [lra|]. rewrite <- S_INR. apply le_INR. lia.
Qed.

(** ** wet antenna attenuation *)
Section Waa.
Variables (fm dt tau : F64) (top vdt vtau : R) (w : list F64) (W : list R).
Hypothesis (im : is_num fm top) (id : is_num dt vdt) (it : is_num tau vtau).
Hypothesis (Htop : 0 <= top <= M) (Hdt : / 2 ^ 60 <= vdt <= 2 ^ 60) (Htau : / 2 ^ 60 <= vtau <= 2 ^ 60) (Hq : 3 * vdt / vtau <= 1).
Hypothesis W0 : (0 < length trsl)%nat -> get n_nan w 0 = n_ofZ 0.
Hypothesis WS : forall i, (1 <= i < length trsl)%nat -> sch_ok trsl b wet fm dt tau w i.
Hypothesis EW : exact_waa T B wet top (3 * vdt / vtau) W.

Lemma q_pos : 0 < vdt /\ 0 < vtau /\ 0 < vdt / vtau <= / 3.
Proof using Hdt Htau Hq.
  pose proof (range_pos 60 vdt (proj1 Hdt)). pose proof (range_pos 60 vtau (proj1 Htau)). split; auto. split; auto. split; [apply Rdiv_lt_0_compat; auto|]. unfold Rdiv in *. lra.
Qed.
Lemma W_bound i : (i < length trsl)%nat -> - (2 * M) <= rget W i <= top.
Proof using HT BT EB N1 Htop Hdt Htau Hq EW M1.
  clear LW W0. destruct EW as (L & Z & H). destruct q_pos as (_ & _ & Q). pose proof LT as LT'.
  assert (A : forall i, (i < length trsl)%nat -> - (2 * M) <= Rmin (rget T i - rget B i) top <= top).
  { intros j Hj. destruct (T_num j Hj) as (_ & HTj). pose proof (B_bound j Hj) as HBj. apply Rabs_le_inv in HTj, HBj. split; [apply Rmin_glb; lra|apply Rmin_r]. }
  induction i as [|i IH]; intros Hi; [rewrite Z by lia; lra|]. destruct (H (Datatypes.S i) ltac:(lia)) as (A1 & A2). replace (Datatypes.S i - 1)%nat with i in A2 by lia.
  specialize (A (Datatypes.S i) Hi). specialize (IH ltac:(lia)).
  unfold flag_is_one in *. destruct (n_eqb (get n_nan wet (Datatypes.S i)) (n_ofZ 1)) eqn:E; [rewrite A2 by auto|rewrite A1 by congruence; auto].
  split; [|eapply Rle_trans; [apply Rmin_l|lra]]. apply Rmin_glb; [lra|]. set (q := 3 * vdt / vtau) in *. assert (0 <= q) by (unfold q, Rdiv in *; lra).
  assert (0 <= q * (top - rget W i)) by (apply Rmult_le_pos; lra). lra.
Qed.

Lemma step_close (x : F64) r Wp E : is_num x r -> Rabs (r - Wp) <= E -> E <= / 1000 * M -> - (2 * M) <= Wp <= top ->
  exists v, is_num (relaxed x fm dt tau) v /\ Rabs (v - (Wp + 3 * vdt / vtau * (top - Wp))) <= E + 26 * (u * M).
Proof using M1 im id it Htop Hdt Htau Hq.
  clear LW N1 W0. intros X C ES WB. destruct q_pos as (D0 & T0 & Q). apply Rabs_le_inv in C. pose proof uM as UM. pose proof u64_pos as U0.
  assert (UMS : u * M <= / 1000 * M) by (apply Rmult_le_compat_r; [lra|]; rewrite u64_val; simpl; lra).
  set (q := vdt / vtau) in *.
  assert (RB : - (2.001 * M) <= r <= 1.001 * M) by lra.
  unfold relaxed.
  (* mx - w *)
  set (d0 := top - r). assert (B0 : Rabs d0 <= 4 * M) by (unfold d0; apply Rabs_le; lra). destruct (op 4 d0 ltac:(lra) B0) as (G0 & F0).
  pose proof (is_sub fm x top r im X G0) as I1. fold d0 in I1. set (d1 := rnd64 d0) in *. apply Rabs_le_inv in B0, F0.
  (* * 3 *)
  assert (B1 : Rabs (d1 * 3) <= 13 * M) by (apply Rabs_le; lra). destruct (op 13 _ ltac:(lra) B1) as (G1 & F1).
  pose proof (is_mul _ (n_ofZ 3) _ _ I1 (num_ofZ 3 ltac:(lia)) G1) as I2. set (d2 := rnd64 (d1 * 3)) in *. apply Rabs_le_inv in B1, F1.
  (* * dt *)
  assert (B2 : Rabs (d2 * vdt) <= 14 * M * vdt). { rewrite Rabs_mult, (Rabs_pos_eq vdt) by lra. apply Rmult_le_compat_r; [lra|]. apply Rabs_le. lra. }
  assert (G2 : Rabs (d2 * vdt) <= big).
  { apply Rle_trans with (1 := B2). apply Rle_trans with (2 ^ 164); [|apply pow_big; lia]. change 164%nat with (4 + (100 + 60))%nat. rewrite (pow_add 2 4), (pow_add 2 100). rewrite Rmult_assoc. apply Rmult_le_compat; [lra|apply Rmult_le_pos; lra|simpl; lra|apply Rmult_le_compat; lra]. }
  assert (F2 : Rabs (rnd64 (d2 * vdt) - d2 * vdt) <= u * (14 * M * vdt)).
  { apply rnd_within; [|exact B2]. apply Rle_trans with (/ 2 ^ 60).
    - change (-900)%Z with (- Z.of_nat 900)%Z. rewrite bpow_neg. apply ipow_small. lia.
    - apply Rle_trans with (1 * vdt); [lra|]. apply Rmult_le_compat_r; lra. }
  pose proof (is_mul _ dt _ _ I2 id G2) as I3. set (d3 := rnd64 (d2 * vdt)) in *.
  (* / tau *)
  assert (E3 : Rabs (d3 / vtau - d2 * q) <= 14 / 3 * (u * M)).
  { replace (d3 / vtau - d2 * q) with ((d3 - d2 * vdt) * / vtau) by (unfold q; field; lra). rewrite Rabs_mult, (Rabs_pos_eq (/ vtau)) by (apply Rlt_le, Rinv_0_lt_compat; lra).
    apply Rle_trans with (u * (14 * M * vdt) * / vtau); [apply Rmult_le_compat_r; [apply Rlt_le, Rinv_0_lt_compat; lra|auto]|].
    replace (u * (14 * M * vdt) * / vtau) with (14 * (u * M) * q) by (unfold q; field; lra). replace (14 / 3 * (u * M)) with (14 * (u * M) * / 3) by lra. apply Rmult_le_compat_l; lra. }
  assert (D2q : Rabs (d2 * q) <= 14 / 3 * M).
  { rewrite Rabs_mult, (Rabs_pos_eq q) by lra. replace (14 / 3 * M) with (14 * M * / 3) by lra. apply Rmult_le_compat; [apply Rabs_pos|lra|apply Rabs_le; lra|lra]. }
  apply Rabs_le_inv in E3, D2q.
  assert (B4 : Rabs (d3 / vtau) <= 5 * M) by (apply Rabs_le; lra). destruct (op 5 _ ltac:(lra) B4) as (G4 & F4).
  pose proof (is_div _ tau _ _ I3 it ltac:(lra) G4) as I4. set (d4 := rnd64 (d3 / vtau)) in *. apply Rabs_le_inv in F4.
  (* error of the increment *)
  assert (K1 : Rabs (q * (d2 - d1 * 3)) <= 13 / 3 * (u * M)).
  { rewrite Rabs_mult, (Rabs_pos_eq q) by lra. replace (13 / 3 * (u * M)) with (/ 3 * (13 * (u * M))) by lra. apply Rmult_le_compat; [lra|apply Rabs_pos|lra|apply Rabs_le; lra]. }
  assert (K0 : Rabs (q * (d1 - d0)) <= 4 / 3 * (u * M)).
  { rewrite Rabs_mult, (Rabs_pos_eq q) by lra. replace (4 / 3 * (u * M)) with (/ 3 * (4 * (u * M))) by lra. apply Rmult_le_compat; [lra|apply Rabs_pos|lra|apply Rabs_le; lra]. }
  apply Rabs_le_inv in K0, K1.
  assert (EI : Rabs (d4 - 3 * q * d0) <= 18 * (u * M)).
  { replace (d4 - 3 * q * d0) with ((d4 - d3 / vtau) + (d3 / vtau - d2 * q) + q * (d2 - d1 * 3) + 3 * (q * (d1 - d0))) by ring. apply Rabs_le. lra. }
  (* w + increment *)
  assert (B5 : Rabs (r + d4) <= 8 * M).
  { apply Rabs_le_inv in EI. assert (0 <= 3 * q <= 1) by lra. assert (Rabs (3 * q * d0) <= 4 * M). { rewrite Rabs_mult, (Rabs_pos_eq (3 * q)) by lra. replace (4 * M) with (1 * (4 * M)) by ring. apply Rmult_le_compat; [lra|apply Rabs_pos|lra|apply Rabs_le; lra]. }
    apply Rabs_le_inv in H0. apply Rabs_le. lra. }
  destruct (op 8 _ ltac:(lra) B5) as (G5 & F5). pose proof (is_add x _ _ _ X I4 G5) as I5. exists (rnd64 (r + d4)). split; [exact I5|].
  apply Rabs_le_inv in EI, F5.
  assert (P : Rabs ((1 - 3 * q) * (r - Wp)) <= E).
  { rewrite Rabs_mult, (Rabs_pos_eq (1 - 3 * q)) by lra. replace E with (1 * E) by ring. apply Rmult_le_compat; [lra|apply Rabs_pos|lra|apply Rabs_le; lra]. }
  apply Rabs_le_inv in P. replace (3 * vdt / vtau) with (3 * q) by (unfold q; field; lra).
  replace (rnd64 (r + d4) - (Wp + 3 * q * (top - Wp))) with ((rnd64 (r + d4) - (r + d4)) + (d4 - 3 * q * d0) + (1 - 3 * q) * (r - Wp)) by (unfold d0; ring).
  apply Rabs_le. lra.
Qed.

Lemma atten_close i : (i < length trsl)%nat -> exists v, is_num (atten trsl b i) v /\ Rabs (v - (rget T i - rget B i)) <= INR i * (8 * unit) + 3 * (u * M) /\ Rabs v <= 2.01 * M.
Proof using HT BT EB Eb N1 LW N20 N30 M1.
  clear W0. intros Hi. destruct (base_close i Hi) as (v & V & C). destruct (T_num i Hi) as (IT & BTi). pose proof (B_bound i Hi) as BBi. pose proof uM as UM.
  pose proof (unit_small i Hi) as US. assert (ES : INR i * (8 * unit) <= / 1000 * M). { apply Rle_trans with (8 * (/ 2 ^ 23 * M)); [lra|]. rewrite <- Rmult_assoc. apply Rmult_le_compat_r; [lra|simpl; lra]. }
  assert (UMS : u * M <= / 1000 * M) by (apply Rmult_le_compat_r; [lra|]; rewrite u64_val; simpl; lra).
  apply Rabs_le_inv in C, BTi, BBi.
  assert (B0 : Rabs (rget T i - v) <= 3 * M) by (apply Rabs_le; lra). destruct (op 3 _ ltac:(lra) B0) as (G & F).
  exists (rnd64 (rget T i - v)). split; [apply is_sub; auto|]. apply Rabs_le_inv in F. split; apply Rabs_le; lra.
Qed.

Lemma waa_close i : (i < length trsl)%nat -> exists v, is_num (get n_nan w i) v /\ Rabs (v - rget W i) <= INR i * (32 * unit).
Proof using All.
  pose proof unit_pos as UP. pose proof uM as UM. pose proof unit_ge as UG. pose proof LT as LT'.
  induction i as [|i IH]; intros Hi.
  - rewrite W0 by lia. exists 0. split; [apply (num_ofZ 0); lia|]. destruct EW as (_ & Z & _). rewrite Z by lia. rewrite Rminus_0_r, Rabs_R0. simpl. lra.
  - specialize (IH ltac:(lia)). destruct IH as (r & R & C). pose proof (WS (Datatypes.S i) ltac:(lia)) as SO. unfold sch_ok in SO. cbv zeta in SO. rewrite SO. clear SO.
    destruct EW as (_ & _ & H). destruct (H (Datatypes.S i) ltac:(lia)) as (A1 & A2). replace (Datatypes.S i - 1)%nat with i in * by lia.
    destruct (atten_close (Datatypes.S i) Hi) as (a & IA & CA & BA).
    pose proof (unit_small i ltac:(lia)) as US.
    assert (ES : INR i * (32 * unit) <= / 1000 * M). { apply Rle_trans with (32 * (/ 2 ^ 23 * M)); [lra|]. rewrite <- Rmult_assoc. apply Rmult_le_compat_r; [lra|simpl; lra]. }
    rewrite S_INR in *. pose proof (pos_INR i) as I0. assert (IU : 0 <= INR i * unit) by (apply Rmult_le_pos; lra).
    assert (M3 : Rabs (Rmin a top - Rmin (rget T (Datatypes.S i) - rget B (Datatypes.S i)) top) <= (INR i + 1) * (32 * unit)).
    { apply min_close; [lra|]. rewrite Rminus_eq_0, Rabs_R0. lra. }
    unfold flag_is_one in *. destruct (n_eqb (get n_nan wet (Datatypes.S i)) (n_ofZ 1)) eqn:E.
    + rewrite A2 by auto. destruct (step_close (get n_nan w i) r (rget W i) _ R C ES (W_bound i ltac:(lia))) as (s & IS & CS).
      eexists. split; [apply num_min; [apply num_min; eauto|exact IS]|]. apply min_close; [exact M3|lra].
    + rewrite A1 by congruence. eexists. split; [apply num_min; eauto|]. exact M3.
Qed.

(** ** attenuation *)
Lemma total_close i : (i < length trsl)%nat -> exists v, is_num (n_sub (atten trsl b i) (get n_nan w i)) v /\
  Rabs (v - (rget T i - rget B i - rget W i)) <= INR (i + 1) * (64 * unit) /\ v <= 5 * M.
Proof using All.
  intros Hi. destruct (atten_close i Hi) as (a & IA & CA & BA). destruct (waa_close i Hi) as (r & IR & CR). pose proof (W_bound i Hi) as WB.
  pose proof unit_pos as UP. pose proof uM as UM. pose proof unit_ge as UG. pose proof (unit_small i Hi) as US.
  assert (ES : INR i * (32 * unit) <= / 1000 * M). { apply Rle_trans with (32 * (/ 2 ^ 23 * M)); [lra|]. rewrite <- Rmult_assoc. apply Rmult_le_compat_r; [lra|simpl; lra]. }
  assert (UMS : u * M <= / 1000 * M) by (apply Rmult_le_compat_r; [lra|]; rewrite u64_val; simpl; lra).
  apply Rabs_le_inv in CA, BA, CR.
  assert (B0 : Rabs (a - r) <= 4.5 * M) by (apply Rabs_le; lra). destruct (op 4.5 _ ltac:(lra) B0) as (G & F).
  exists (rnd64 (a - r)). split; [apply is_sub; auto|]. apply Rabs_le_inv in F, B0. rewrite plus_INR. simpl (INR 1). pose proof (pos_INR i) as I0. assert (IU : 0 <= INR i * unit) by (apply Rmult_le_pos; lra). split; [apply Rabs_le|]; lra.
Qed.
End Waa.
End Base.
End Run.
