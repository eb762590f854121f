From Coq Require Import List ZArith Bool Lia Arith Reals Lra Psatz String.
From Flocq Require Import Core.
From Verif Require Import Base Num NumF64 NumList NpOps RealSpec RealStat Libm Libm64 Ulp64 KR_model KR_spec KR_proofs Chain_spec Chain_proofs
  HaversineFloat_spec HaversineFloat_proofs HaversineFloat_proofs2 HaversineAcc_proofs FloatErr_spec FloatErr_proofs Pastorek_model Pastorek_proofs WaaFloat_spec WaaFloat_proofs
  MinMaxLocal_proofs PastorekFloat_spec.
Import ListNotations.
Local Open Scope R_scope.
Local Notation length := List.length.
Local Arguments bpow : simpl never.

(** ** one interval of the table *)
Lemma num_opp (y : F64) b : is_num y b -> is_num (n_opp y) (- b).
Proof. intros Y. unfold is_num. pose proof (val_opp _ F64sem y) as V. change (f_val (n_opp y) = xopp (f_val y)) in V. rewrite V, Y. reflexivity. Qed.
Lemma add_rel x y a b : is_num x a -> is_num y b -> Rabs (rnd64 (a + b) - (a + b)) <= u64 * Rabs (a + b).
Proof. intros X Y. pose proof (sub_rel x (n_opp y) a (- b) X (num_opp y b Y)) as H. replace (a - - b) with (a + b) in H by ring. exact H. Qed.
Lemma rnd_le_num x a z : is_num x a -> z <= a -> rnd64 z <= a.
Proof. intros X H. rewrite <- (num_generic _ _ X). apply rnd64_le. auto. Qed.
Lemma num_le_rnd x a z : is_num x a -> a <= z -> a <= rnd64 z.
Proof. intros X H. rewrite <- (num_generic _ _ X). apply rnd64_le. auto. Qed.

(** different numbers are not closer than a relative 2^-53 *)
Lemma gap_rel x y a b : is_num x a -> is_num y b -> 0 <= a -> a < b -> u64 * a <= b - a.
Proof.
  intros X Y A H.
  assert (GX : generic_format radix2 (FLT_exp (-1074) 53) a) by (rewrite <- (num_generic _ _ X); apply rnd64_format).
  assert (GY : generic_format radix2 (FLT_exp (-1074) 53) b) by (rewrite <- (num_generic _ _ Y); apply rnd64_format).
  assert (P : succ radix2 (FLT_exp (-1074) 53) a <= b) by (apply succ_le_lt; auto; typeclasses eauto).
  rewrite succ_eq_pos in P by auto. pose proof (ulp_FLT_gt radix2 (-1074) 53 a) as U. rewrite Rabs_pos_eq in U by auto.
  change (bpow radix2 (-(53))) with u64 in U. lra.
Qed.

Lemma u_poly : u64 <= / 1024 -> 0 < u64 -> (1 + u64) <= (1 + 3 * u64) * (1 - u64) /\ (1 + 3 * u64) * (1 + u64) * (1 + u64) <= 1 + 6 * u64 /\ (1 + 6 * u64) * (1 + u64) <= 1 + 8 * u64.
Proof. intros. repeat split; nra. Qed.

Section Piece.
Variables (x0 x1 w0 w1 a0 a1 v : F64) (X0 X1 W0 W1 A0 A1 r : R).
Hypotheses (NX0 : is_num x0 X0) (NX1 : is_num x1 X1) (NW0 : is_num w0 W0) (NW1 : is_num w1 W1) (NA0 : is_num a0 A0) (NA1 : is_num a1 A1) (NV : is_num v r).
Hypotheses (E0 : X0 = rnd64 (A0 + W0)) (E1 : X1 = rnd64 (A1 + W1)).
Hypotheses (HA : 0 <= A0 <= A1) (HA1 : A1 <= 1024) (HW : 0 <= W0 <= W1) (HW1 : W1 <= 1024) (Hr : X0 < r < X1).
Let d := X1 - X0. Let w := W1 - W0. Let p := r - X0. Let z := w / d * p.

Lemma steep : w <= 5 * d.
Proof.
  pose proof u64_pos as UP. pose proof u64_small as US.
  pose proof (add_rel _ _ _ _ NA0 NW0) as R0. rewrite <- E0 in R0. rewrite (Rabs_pos_eq (A0 + W0)) in R0 by lra. apply Rabs_le_inv in R0.
  pose proof (add_rel _ _ _ _ NA1 NW1) as R1. rewrite <- E1 in R1. rewrite (Rabs_pos_eq (A1 + W1)) in R1 by lra. apply Rabs_le_inv in R1.
  assert (PX0 : 0 <= X0) by (rewrite E0; apply rnd64_nonneg; lra).
  assert (G : u64 * X0 <= X1 - X0) by (apply (gap_rel x0 x1); auto; lra).
  assert (Q1 : A1 + W1 <= X1 * (1 + 2 * u64)).
  { apply Rmult_le_reg_r with (1 - u64); [lra|]. apply Rle_trans with X1; [lra|]. replace (X1 * (1 + 2 * u64) * (1 - u64)) with (X1 * ((1 + 2 * u64) * (1 - u64))) by ring.
    rewrite <- (Rmult_1_r X1) at 1. apply Rmult_le_compat_l; [lra|]. nra. }
  assert (Q0 : X0 * (1 - u64) <= A0 + W0).
  { apply Rmult_le_reg_r with (1 + u64); [lra|]. apply Rle_trans with X0; [|lra]. replace (X0 * (1 - u64) * (1 + u64)) with (X0 * ((1 - u64) * (1 + u64))) by ring.
    rewrite <- (Rmult_1_r X0) at 2. apply Rmult_le_compat_l; [lra|]. nra. }
  unfold w, d. assert (u64 * (X1 - X0) <= / 1024 * (X1 - X0)) by (apply Rmult_le_compat_r; lra). lra.
Qed.

Lemma piece : exists y, is_num (n_add (n_mul (n_div (n_sub w1 w0) (n_sub x1 x0)) (n_sub v x0)) w0) y /\ W0 <= y /\ y <= W0 + z + tiny /\ 0 <= z <= w /\ W0 + z <= r /\
  y = rnd64 (rnd64 (rnd64 (rnd64 w / rnd64 d) * rnd64 p) + W0) /\ 0 <= rnd64 (rnd64 w / rnd64 d).
Proof.
  pose proof u64_pos as UP. pose proof u64_small as US. pose proof n0_pos as NP. assert (NT2 : n0 <= / 1267650600228229401496703205376).
  { unfold n0. apply Rle_trans with (bpow radix2 (-100)); [apply bpow_le; lia|]. change (bpow radix2 (-100)) with (/ 1267650600228229401496703205376). lra. }
  destruct (u_poly US UP) as (P1 & P2 & P3). pose proof steep as ST.
  assert (D : 0 < d) by (unfold d; lra). assert (PW : 0 <= w) by (unfold w; lra). assert (PP : 0 < p < d) by (unfold p, d; lra).
  assert (PX0 : W0 <= X0) by (rewrite E0; apply (num_le_rnd _ _ _ NW0); lra). assert (PX1 : W1 <= X1) by (rewrite E1; apply (num_le_rnd _ _ _ NW1); lra).
  assert (T2048 : is_num (n_ofZ 2048 : F64) 2048) by (apply num_ofZ; simpl; lia).
  assert (BX1 : X1 <= 2048) by (rewrite E1; apply (rnd_le_num _ _ _ T2048); lra).
  assert (K : 0 <= w / d <= 5). { split; [apply Rmult_le_pos; [auto|apply Rlt_le, Rinv_0_lt_compat; auto]|]. apply Rmult_le_reg_r with d; auto. unfold Rdiv. rewrite Rmult_assoc, Rinv_l, Rmult_1_r by lra. lra. }
  assert (BG : 4096 <= big) by (unfold big; apply Rle_trans with (bpow radix2 12); [change (bpow radix2 12) with 4096; lra|apply bpow_le; lia]).
  (* differences *)
  assert (ND : is_num (n_sub x1 x0) (rnd64 d)) by (apply is_sub; auto; fold d; rewrite Rabs_pos_eq; unfold d in *; lra).
  assert (NW : is_num (n_sub w1 w0) (rnd64 w)) by (apply is_sub; auto; fold w; rewrite Rabs_pos_eq; unfold w in *; lra).
  assert (NPp : is_num (n_sub v x0) (rnd64 p)) by (apply is_sub; auto; fold p; rewrite Rabs_pos_eq; unfold p, d in *; lra).
  pose proof (sub_rel _ _ _ _ NX1 NX0) as RD. fold d in RD. rewrite (Rabs_pos_eq d) in RD by lra. apply Rabs_le_inv in RD.
  pose proof (sub_rel _ _ _ _ NW1 NW0) as RW. fold w in RW. rewrite (Rabs_pos_eq w) in RW by lra. apply Rabs_le_inv in RW.
  pose proof (sub_rel _ _ _ _ NV NX0) as RP. fold p in RP. rewrite (Rabs_pos_eq p) in RP by lra. apply Rabs_le_inv in RP.
  set (d' := rnd64 d) in *. set (w' := rnd64 w) in *. set (p' := rnd64 p) in *.
  assert (UD : u64 * d <= / 1024 * d) by (apply Rmult_le_compat_r; lra). assert (D' : 0 < d') by lra. assert (W' : 0 <= w') by (unfold w'; apply rnd64_nonneg; auto). assert (P' : 0 <= p') by (unfold p'; apply rnd64_nonneg; lra).
  (* slope *)
  assert (Q : 0 <= w' / d' <= w / d * (1 + 3 * u64)).
  { split; [apply Rmult_le_pos; [auto|apply Rlt_le, Rinv_0_lt_compat; auto]|]. apply Rmult_le_reg_r with d'; auto. unfold Rdiv at 1. rewrite Rmult_assoc, Rinv_l, Rmult_1_r by lra.
    apply Rle_trans with (w * (1 + u64)); [lra|]. apply Rle_trans with (w / d * (1 + 3 * u64) * (d * (1 - u64))).
    - replace (w / d * (1 + 3 * u64) * (d * (1 - u64))) with (w * ((1 + 3 * u64) * (1 - u64))) by (field; lra). apply Rmult_le_compat_l; auto.
    - apply Rmult_le_compat_l; [|lra]. apply Rmult_le_pos; lra. }
  assert (Q6 : w' / d' <= 6). { apply Rle_trans with (w / d * (1 + 3 * u64)); [lra|]. apply Rle_trans with (5 * (1 + 3 * u64)); [apply Rmult_le_compat_r; lra|lra]. }
  assert (NS : is_num (n_div (n_sub w1 w0) (n_sub x1 x0)) (rnd64 (w' / d'))) by (apply is_div; auto; [lra|rewrite Rabs_pos_eq; lra]).
  destruct (close_rnd (w' / d') ltac:(lra)) as (S0 & _ & S1). set (s := rnd64 (w' / d')) in *.
  assert (S7 : s <= 7). { apply Rle_trans with (6 * (1 + u64) + n0); [|lra]. apply Rle_trans with (w' / d' * (1 + u64) + n0); [lra|]. apply Rplus_le_compat_r, Rmult_le_compat_r; lra. }
  (* product *)
  assert (PB : p <= 2048) by (unfold p; lra). assert (UPp : u64 * p <= / 1024 * 2048) by (apply Rmult_le_compat; lra). assert (P3k : p' <= 3000) by lra.
  assert (SP : 0 <= s * p') by (apply Rmult_le_pos; auto). assert (SPB : s * p' <= 21000) by (replace 21000 with (7 * 3000) by ring; apply Rmult_le_compat; auto).
  assert (BG2 : 30000 <= big) by (unfold big; apply Rle_trans with (bpow radix2 15); [change (bpow radix2 15) with 32768; lra|apply bpow_le; lia]).
  assert (NT' : is_num (n_mul (n_div (n_sub w1 w0) (n_sub x1 x0)) (n_sub v x0)) (rnd64 (s * p'))) by (apply is_mul; auto; rewrite Rabs_pos_eq; lra).
  destruct (close_rnd (s * p') SP) as (T0 & _ & T1). set (t := rnd64 (s * p')) in *.
  assert (Z : 0 <= z <= w). { unfold z. split; [apply Rmult_le_pos; lra|]. apply Rle_trans with (w / d * d); [apply Rmult_le_compat_l; lra|]. replace (w / d * d) with w by (field; lra). lra. }
  assert (SPz : s * p' <= z * (1 + 6 * u64) + 4096 * n0).
  { apply Rle_trans with ((w / d * ((1 + 3 * u64) * (1 + u64)) + n0) * (p * (1 + u64))).
    - apply Rmult_le_compat; auto; [|lra]. apply Rle_trans with (w / d * (1 + 3 * u64) * (1 + u64) + n0); [|lra]. apply Rle_trans with (w' / d' * (1 + u64) + n0); [lra|].
      apply Rplus_le_compat_r, Rmult_le_compat_r; lra.
    - replace ((w / d * ((1 + 3 * u64) * (1 + u64)) + n0) * (p * (1 + u64))) with (z * ((1 + 3 * u64) * (1 + u64) * (1 + u64)) + n0 * (p * (1 + u64))) by (unfold z; ring).
      apply Rplus_le_compat; [apply Rmult_le_compat_l; lra|]. rewrite (Rmult_comm 4096). apply Rmult_le_compat_l; [lra|]. lra. }
  assert (ZB : z <= 1024) by (unfold w in *; lra).
  assert (TZ : t <= z + 8192 * u64 + 8200 * n0).
  { apply Rle_trans with ((z * (1 + 6 * u64) + 4096 * n0) * (1 + u64) + n0); [apply Rle_trans with (s * p' * (1 + u64) + n0); [lra|]; apply Rplus_le_compat_r, Rmult_le_compat_r; lra|].
    assert (z * ((1 + 6 * u64) * (1 + u64)) <= z * (1 + 8 * u64)) by (apply Rmult_le_compat_l; lra). assert (z * (8 * u64) <= 1024 * (8 * u64)) by (apply Rmult_le_compat_r; lra). assert (n0 * u64 <= n0 * / 1024) by (apply Rmult_le_compat_l; lra). lra. }
  assert (U53 : u64 = / 9007199254740992) by (rewrite u64_val; reflexivity).
  assert (NY : is_num (n_add (n_mul (n_div (n_sub w1 w0) (n_sub x1 x0)) (n_sub v x0)) w0) (rnd64 (t + W0))) by (apply is_add; auto; rewrite Rabs_pos_eq; lra).
  exists (rnd64 (t + W0)). split; [exact NY|]. split; [apply (num_le_rnd _ _ _ NW0); lra|]. split; [|split; [exact Z|split; [|split; [reflexivity|exact S0]]]].
  - destruct (close_rnd (t + W0) ltac:(lra)) as (_ & _ & Y1). unfold tiny. assert (W0 + z <= 2048) by lra.
    assert (T3 : t + W0 <= 3000) by lra. assert (UT : (t + W0) * u64 <= 3000 * u64) by (apply Rmult_le_compat_r; lra).
    replace (/ 2 ^ 39) with (/ 549755813888) by (f_equal; ring). lra.
  - unfold z. set (k := w / d) in *. assert (KD : k * d = w) by (unfold k; field; lra).
    (* (1-l) W0 + l W1 <= (1-l) X0 + l X1 *)
    apply Rmult_le_reg_r with d; auto. replace ((W0 + k * p) * d) with (W0 * d + w * p) by (rewrite <- KD; ring).
    replace (r * d) with (X0 * d + d * p) by (unfold p; ring). 
    assert (W0 * (d - p) <= X0 * (d - p)) by (apply Rmult_le_compat_r; lra). assert (W1 * p <= X1 * p) by (apply Rmult_le_compat_r; lra).
    replace (W0 * d + w * p) with (W0 * (d - p) + W1 * p) by (unfold w; ring). replace (X0 * d + d * p) with (X0 * (d - p) + X1 * p) by (unfold d; ring). lra.
Qed.
End Piece.

(** ** the table *)
Lemma interp_index_spec {O : numops} (xp : list O) (x : O) k :
  (interp_index xp x k <= k)%nat /\ (interp_index xp x k = 0%nat \/ n_leb (get n_nan xp (interp_index xp x k)) x = true) /\
  forall i, (interp_index xp x k < i <= k)%nat -> n_leb (get n_nan xp i) x = false.
Proof.
  induction k as [|k IH]; simpl.
  - split; [lia|]. split; [auto|]. intros; lia.
  - destruct (n_leb (get n_nan xp (S k)) x) eqn:E.
    + split; [lia|]. split; [auto|]. intros; lia.
    + destruct IH as (H1 & H2 & H3). split; [lia|]. split; [auto|]. intros i Hi. destruct (Nat.eq_dec i (S k)) as [->|]; auto. apply H3. lia.
Qed.
Lemma leb_num (x y : F64) a b : is_num x a -> is_num y b -> n_leb x y = true <-> a <= b.
Proof. intros X Y. rewrite (val_leb _ F64sem). change (xleb (f_val x) (f_val y) = true <-> a <= b). rewrite X, Y. apply xleb_fin. Qed.
Lemma ltb_num (x y : F64) a b : is_num x a -> is_num y b -> n_ltb x y = true <-> a < b.
Proof. intros X Y. rewrite (val_ltb _ F64sem). change (xltb (f_val x) (f_val y) = true <-> a < b). rewrite X, Y. apply xltb_fin. Qed.
Lemma eqb_num (x y : F64) a b : is_num x a -> is_num y b -> n_eqb x y = true <-> a = b.
Proof.
  intros X Y. rewrite (val_eqb _ F64sem). change (xeqb (f_val x) (f_val y) = true <-> a = b). rewrite X, Y. rewrite xeqb_true.
  split; [intros [E _]; congruence|intros ->; split; auto].
Qed.
Lemma isnan_num (x : F64) a : is_num x a -> n_isnan x = false.
Proof. intros X. rewrite (val_isnan _ F64sem). change (xisnan (f_val x) = false). rewrite X. reflexivity. Qed.

Section Table.
Variables (A W : list F64) (RA RW : nat -> R) (n : nat).
Hypotheses (LA : length A = n) (LW : length W = n) (N1 : (1 <= n)%nat).
Hypotheses (NA : forall i, (i < n)%nat -> is_num (get n_nan A i) (RA i)) (NW : forall i, (i < n)%nat -> is_num (get n_nan W i) (RW i)).
Hypotheses (A0 : forall i, (i < n)%nat -> 0 <= RA i <= 1024) (W0 : forall i, (i < n)%nat -> 0 <= RW i <= 1024).
Hypotheses (AM : forall i, (i + 1 < n)%nat -> RA i <= RA (i + 1)) (WM : forall i, (i + 1 < n)%nat -> RW i <= RW (i + 1)).
Let xp := map2 n_add A W.
Definition RX i := rnd64 (RA i + RW i).

Lemma xp_num i : (i < n)%nat -> is_num (get n_nan xp i) (RX i).
Proof.
  intros Hi. unfold xp. rewrite get_map2 with (da := n_nan) (db := n_nan) by lia. apply is_add; auto. pose proof (A0 i Hi). pose proof (W0 i Hi).
  rewrite Rabs_pos_eq by lra. apply Rle_trans with (bpow radix2 12); [change (bpow radix2 12) with 4096; lra|unfold big; apply bpow_le; lia].
Qed.
Lemma xp_len : length xp = n. Proof. unfold xp. rewrite map2_length; lia. Qed.
Lemma WX i : (i < n)%nat -> RW i <= RX i.
Proof. intros Hi. unfold RX. apply (num_le_rnd _ _ _ (NW i Hi)). pose proof (A0 i Hi). lra. Qed.
Lemma W_mono i j : (i <= j)%nat -> (j < n)%nat -> RW i <= RW j.
Proof.
  induction j as [|j IH]; intros H Hj; [replace i with 0%nat by lia; lra|]. destruct (Nat.eq_dec i (S j)) as [->|]; [lra|].
  apply Rle_trans with (RW j); [apply IH; lia|]. replace (S j) with (j + 1)%nat by lia. apply WM. lia.
Qed.
Lemma X_le i j : (i <= j)%nat -> (j < n)%nat -> RX i <= RX j.
Proof.
  intros H Hj. unfold RX. apply rnd64_le. apply Rplus_le_compat; [|apply W_mono; auto].
  induction j as [|j IH]; [replace i with 0%nat by lia; lra|]. destruct (Nat.eq_dec i (S j)) as [->|]; [lra|].
  apply Rle_trans with (RA j); [apply IH; lia|]. replace (S j) with (j + 1)%nat by lia. apply AM. lia.
Qed.

(** the interval of [r] and the value there *)
Definition found (r y : R) (j : nat) : Prop := (j < n)%nat /\ RX j <= r /\ RW j <= y /\ y <= r + tiny /\
  (r = RX j -> y = RW j) /\ ((j + 1 = n)%nat -> y = RW j) /\
  ((j + 1 < n)%nat -> r < RX (j + 1) /\ y <= RW (j + 1) + tiny /\
     (RX j < r -> y = rnd64 (rnd64 (rnd64 (rnd64 (RW (j + 1) - RW j) / rnd64 (RX (j + 1) - RX j)) * rnd64 (r - RX j)) + RW j) /\
                  0 <= rnd64 (rnd64 (RW (j + 1) - RW j) / rnd64 (RX (j + 1) - RX j)))).

Lemma point (x : F64) r : is_num x r -> RX 0 <= r <= RX (n - 1) -> exists y j, is_num (interp_point xp W x) y /\ found r y j.
Proof.
  intros X Hr. unfold interp_point. rewrite (isnan_num _ _ X), xp_len. set (j := interp_index xp x (n - 1)).
  destruct (interp_index_spec xp x (n - 1)) as (J1 & J2 & J3). fold j in J1, J2, J3.
  assert (TP : 0 < tiny) by (unfold tiny; apply Rinv_0_lt_compat, pow_lt; lra).
  assert (Hj : (j < n)%nat) by lia.
  assert (Xj : RX j <= r). { destruct J2 as [->|J2]; [lra|]. apply (leb_num _ _ _ _ (xp_num j Hj) X). auto. }
  assert (Xn : (j + 1 < n)%nat -> r < RX (j + 1)).
  { intros H. specialize (J3 (j + 1)%nat ltac:(lia)). apply Rnot_le_lt. intros C. apply (leb_num _ _ _ _ (xp_num (j + 1) H) X) in C. congruence. }
  pose proof (WX j Hj) as WXj.
  destruct (Nat.eqb_spec j (n - 1)) as [EJ|EJ].
  - exists (RW j), j. split; [apply NW; auto|]. split; [auto|]. split; [auto|]. split; [lra|]. split; [lra|]. split; [auto|]. split; [auto|]. intros; lia.
  - assert (H1 : (j + 1 < n)%nat) by lia. pose proof (Xn H1) as Xr. destruct (n_eqb (get n_nan xp j) x) eqn:EQ.
    + apply (eqb_num _ _ _ _ (xp_num j Hj) X) in EQ. exists (RW j), j. split; [apply NW; auto|]. split; [auto|]. split; [auto|]. split; [lra|]. split; [lra|]. split; [auto|]. split; [auto|].
      intros _. split; [auto|]. split; [pose proof (WM j H1); lra|]. intros; lra.
    + assert (Xs : RX j < r). { destruct Xj as [|E]; auto. apply (eqb_num _ _ _ _ (xp_num j Hj) X) in E. congruence. }
      destruct (piece (get n_nan xp j) (get n_nan xp (j + 1)) (get n_nan W j) (get n_nan W (j + 1)) (get n_nan A j) (get n_nan A (j + 1)) x
        (RX j) (RX (j + 1)) (RW j) (RW (j + 1)) (RA j) (RA (j + 1)) r) as (y & NY & Y1 & Y2 & Z & Y3 & Y4 & Y5); auto.
      1, 2: apply xp_num; auto.
      1, 2: pose proof (A0 j Hj); pose proof (A0 (j + 1)%nat H1); pose proof (AM j H1); lra.
      1, 2: pose proof (W0 j Hj); pose proof (W0 (j + 1)%nat H1); pose proof (WM j H1); lra.
      exists y, j. split; [exact NY|]. split; [auto|]. split; [auto|]. split; [auto|]. split; [lra|]. split; [lra|]. split; [lia|]. intros _. split; [auto|]. split; [lra|]. auto.
Qed.

Lemma found_mono r r' y y' j j' : found r y j -> found r' y' j' -> r <= r' -> y <= y' + tiny.
Proof.
  intros (Hj & H1 & H2 & _ & H3 & H4 & H5) (Hj' & H1' & H2' & _ & H3' & H4' & H5') R.
  assert (TP : 0 < tiny) by (unfold tiny; apply Rinv_0_lt_compat, pow_lt; lra).
  destruct (lt_eq_lt_dec j j') as [[L|<-]|L].
  - destruct (H5 ltac:(lia)) as (_ & Y & _). pose proof (W_mono (j + 1) j' ltac:(lia) Hj'). lra.
  - destruct (Nat.eq_dec (j + 1) n) as [E|E]; [rewrite (H4 E), (H4' E); lra|].
    destruct (H5 ltac:(lia)) as (_ & _ & Y). destruct (H5' ltac:(lia)) as (_ & _ & Y'). destruct (Rle_lt_or_eq_dec _ _ H1) as [C|C]; [|rewrite (H3 (eq_sym C)); lra].
    destruct (Y C) as [E1 S0]. destruct (Y' ltac:(lra)) as [E1' _]. rewrite E1, E1'. 
    match goal with |- ?a <= ?b + _ => enough (a <= b) by lra end. apply rnd64_le, Rplus_le_compat_r, rnd64_le, Rmult_le_compat_l; auto. apply rnd64_le. lra.
  - exfalso. destruct (H5' ltac:(lia)) as (Y & _). pose proof (X_le (j' + 1) j ltac:(lia) Hj). lra.
Qed.
End Table.

(** ** the table of the function *)
Definition real_of (x : F64) : R := match f_val x with XFin r => r | _ => 0 end.
Lemma between_num (x lo hi : F64) a b : is_num lo a -> is_num hi b -> n_leb lo x = true -> n_leb x hi = true -> is_num x (real_of x) /\ a <= real_of x <= b.
Proof.
  intros A B H1 H2. rewrite (val_leb _ F64sem) in H1, H2. change (xleb (f_val lo) (f_val x) = true) in H1. change (xleb (f_val x) (f_val hi) = true) in H2.
  unfold is_num, real_of in *. rewrite A in H1. rewrite B in H2. destruct (f_val x) as [| |r|]; try discriminate.
  apply xleb_fin in H1. apply xleb_fin in H2. auto.
Qed.
Lemma num_unique (x : F64) a b : is_num x a -> is_num x b -> a = b.
Proof. unfold is_num. congruence. Qed.

Definition exponents : list F64 := np_linspace (n_ofZ (-10)) (n_ofZ 3) 100.
Lemma exponents_checked : length exponents = 100%nat /\ f_same (get n_nan exponents 99) (n_ofZ 3) = true /\
  forallb (fun i => n_leb (get n_nan exponents i) (get n_nan exponents (i + 1)) && n_leb (n_ofZ (-10)) (get n_nan exponents i) && n_leb (get n_nan exponents i) (n_ofZ 3)) (seq 0 99) = true.
Proof. split; [unfold exponents, np_linspace; rewrite app_length, map_length, seq_length; reflexivity|]. split; vm_compute; reflexivity. Qed.
Lemma exponents_range i : (i < 100)%nat -> n_leb (n_ofZ (-10)) (get n_nan exponents i) = true /\ n_leb (get n_nan exponents i) (n_ofZ 3) = true.
Proof.
  intros Hi. destruct exponents_checked as (_ & E & F). rewrite forallb_forall in F. destruct (Nat.eq_dec i 99) as [->|].
  - apply f_same_eq in E. rewrite E. split; vm_compute; reflexivity.
  - specialize (F i ltac:(apply in_seq; lia)). rewrite !andb_true_iff in F. tauto.
Qed.
Lemma exponents_up i : (i + 1 < 100)%nat -> n_leb (get n_nan exponents i) (get n_nan exponents (i + 1)) = true.
Proof.
  intros Hi. destruct exponents_checked as (_ & _ & F). rewrite forallb_forall in F.
  specialize (F i ltac:(apply in_seq; lia)). rewrite !andb_true_iff in F. tauto.
Qed.

Section Run.
Variables (L : libm F64) (cubic : list F64 -> list F64 -> F64 -> F64) (f l A_max zeta d a b : F64) (pol : string) (M : R).
Hypotheses (PS : pow_sane L) (PM : pow_mono L) (PZ : pow_zero L) (ES : exp_sane L) (TS : ten_sane L).
Hypothesis AB : a_b cubic [n_div f (n_ofZ (10 ^ 9))] (PolStr pol) "ITU_2005" = Ok ([a], [b]).
Hypotheses (Pb : positive (n_div (n_ofZ 1) b)) (Pal : positive (n_mul a l)) (Fal : finite (n_mul a l)).
Hypotheses (NM : is_num A_max M) (HM : 0 <= M <= 1024) (Hz : nonneg zeta) (Pd : positive d) (Fd : finite d).

Definition tab := A_rain_table L.
Lemma tab_len : length tab = 100%nat.
Proof. unfold tab, A_rain_table. rewrite upd_length, map_length. apply exponents_checked. Qed.
Lemma tab_0 : get n_nan tab 0 = n_ofZ 0.
Proof. unfold tab, A_rain_table. apply get_upd_eq. rewrite map_length. change (0 < length exponents)%nat. destruct exponents_checked as (-> & _). lia. Qed.
Lemma tab_S i : (0 < i < 100)%nat -> get n_nan tab i = m_pow L (n_ofZ 10) (get n_nan exponents i).
Proof.
  intros Hi. unfold tab, A_rain_table. rewrite get_upd_neq by lia. rewrite (get_map _ n_nan); [reflexivity|].
  change (i < length exponents)%nat. destruct exponents_checked as (-> & _). lia.
Qed.
Lemma tab_range i : (i < 100)%nat -> n_leb (n_ofZ 0) (get n_nan tab i) = true /\ n_leb (get n_nan tab i) (n_ofZ 1024) = true.
Proof.
  intros Hi. destruct i as [|i]; [rewrite tab_0; split; vm_compute; reflexivity|]. rewrite tab_S by lia. apply TS; apply exponents_range; auto.
Qed.
Lemma tab_up i : (i + 1 < 100)%nat -> n_leb (get n_nan tab i) (get n_nan tab (i + 1)) = true.
Proof.
  intros Hi. destruct i as [|i]; [rewrite tab_0; apply tab_range; lia|]. rewrite !tab_S by lia.
  apply TS; [apply exponents_up; auto|apply exponents_range; lia|apply exponents_range; lia].
Qed.
Definition rates := map (rate L (n_mul a l) (n_div (n_ofZ 1) b) (n_ofZ 0)) tab.
Lemma rates_are : calc_R_from_A L cubic tab l (Some [n_div f (n_ofZ (10 ^ 9))]) (Some (PolStr pol)) None None "ITU_2005" zero = Ok rates.
Proof.
  unfold calc_R_from_A. change (a_b cubic [n_div f (n_ofZ (10 ^ 9))] (PolArr [pol]) "ITU_2005") with (a_b cubic [n_div f (n_ofZ (10 ^ 9))] (PolStr pol) "ITU_2005"). rewrite AB.
  cbn [bind fst snd]. apply power_law_elementwise; reflexivity.
Qed.
Lemma rates_len : length rates = 100%nat. Proof. unfold rates. rewrite map_length. apply tab_len. Qed.
Lemma rates_get i : (i < 100)%nat -> get n_nan rates i = rate L (n_mul a l) (n_div (n_ofZ 1) b) (n_ofZ 0) (get n_nan tab i).
Proof. intros. unfold rates. apply get_map. rewrite tab_len. auto. Qed.
Lemma e_nonneg : nonneg (n_div (n_ofZ 1) b).
Proof. unfold nonneg. apply (ltb_leb F64sem). exact Pb. Qed.
Lemma rates_0 : n_eqb (get n_nan rates 0) (n_ofZ 0) = true.
Proof.
  rewrite rates_get by lia. rewrite tab_0. unfold rate. replace (n_isnan (n_ofZ 0 : F64)) with false by (vm_compute; reflexivity).
  replace (n_leb (zero : F64) (n_ofZ 0)) with true by (vm_compute; reflexivity). cbv zeta.
  assert (Q : n_eqb (m_pow L (n_div (n_ofZ 0) (n_mul a l)) (n_div (n_ofZ 1) b)) (n_ofZ 0) = true).
  { apply PZ; [|exact Pb]. destruct (proj1 (finite_val F64sem _) Fal) as (c & C).
    assert (C0 : c <> 0). { pose proof (ltb_num _ _ 0 c (num_ofZ 0 ltac:(lia)) C) as T. unfold positive in Pal. apply T in Pal. lra. }
    assert (Q : is_num (n_div (n_ofZ 0) (n_mul a l)) (rnd64 (0 / c))).
    { apply is_div; [apply (num_ofZ 0); lia|exact C|exact C0|]. unfold Rdiv. rewrite Rmult_0_l, Rabs_R0. apply bpow_ge_0. }
    apply (eqb_num _ _ _ _ Q (num_ofZ 0 ltac:(lia))). unfold Rdiv. rewrite Rmult_0_l. apply rnd64_0. }
  destruct (n_ltb _ (n_ofZ 0)); [vm_compute; reflexivity|exact Q].
Qed.

Lemma run_table : exists w, waa_pastorek_2021 L (SArray rates) A_max zeta d = Ok w /\ length w = 100%nat /\ get n_nan w 0 = n_ofZ 0 /\
  (forall i, (i < 100)%nat -> is_num (get n_nan w i) (real_of (get n_nan w i)) /\ 0 <= real_of (get n_nan w i) <= M) /\
  (forall i, (i + 1 < 100)%nat -> real_of (get n_nan w i) <= real_of (get n_nan w (i + 1))).
Proof.
  destruct (pastorek_float F64sem L rates A_max zeta d PS PM ES) as (w & E & LW & B & MO); auto.
  { unfold nonneg. apply (leb_num _ _ 0 M); auto; [apply (num_ofZ 0); lia|lra]. }
  { split; [apply (isnan_num _ _ NM)|]. rewrite (val_isinf _ F64sem). change (xisinf (f_val A_max) = false). rewrite NM. reflexivity. }
  { intros r Hr. apply in_map_iff in Hr. destruct Hr as (x & <- & Hx). destruct (In_nth _ _ n_nan Hx) as (i & Hi & <-). rewrite tab_len in Hi.
    destruct (rate_range F64sem L PS (n_mul a l) (n_div (n_ofZ 1) b) (n_ofZ 0) (get n_nan tab i)) as (G & _); auto; [apply e_nonneg|].
    destruct (tab_range i Hi) as [T1 T2]. destruct (between_num _ _ _ _ _ (num_ofZ 0 ltac:(lia)) (num_ofZ 1024 ltac:(lia)) T1 T2) as [T _]. exact (isnan_num _ _ T). }
  rewrite rates_len in *. exists w.
  assert (N : forall i, (i < 100)%nat -> is_num (get n_nan w i) (real_of (get n_nan w i)) /\ 0 <= real_of (get n_nan w i) <= M).
  { intros i Hi. destruct (B i Hi). apply (between_num _ (n_ofZ 0) A_max); auto. apply (num_ofZ 0). lia. }
  split; [auto|]. split; [auto|]. split.
  - destruct (pastorek_masked L rates A_max zeta d) as (w' & E' & _ & Z). rewrite E in E'. injection E' as <-. apply Z; [rewrite rates_len; lia|apply rates_0].
  - split; [auto|]. intros i Hi. apply (leb_num _ _ _ _ (proj1 (N i ltac:(lia))) (proj1 (N (i + 1)%nat Hi))). apply MO; try lia.
    rewrite !rates_get by lia. apply (rate_mono F64sem L PS PM); auto; [apply e_nonneg|apply tab_up; auto].
Qed.

Let run A := waa_pastorek_2021_from_A_obs L cubic A f pol l A_max zeta d.

Lemma from_A_obs_float : exists top : F64, n_leb (m_pow L (n_ofZ 10) (n_ofZ 3)) top = true /\ forall A_obs : list F64,
  ((exists x, In x A_obs /\ (n_ltb x (n_ofZ 0) = true \/ n_ltb top x = true)) -> run A_obs = Err ValueError) /\
  ((forall x, In x A_obs -> missing x \/ n_leb (n_ofZ 0) x = true /\ n_leb x top = true) ->
   exists out, run A_obs = Ok out /\ length out = length A_obs /\
   (forall i, (i < length A_obs)%nat -> missing (get n_nan A_obs i) -> missing (get n_nan out i)) /\
   (forall i x, (i < length A_obs)%nat -> is_num (get n_nan A_obs i) x ->
      exists y, is_num (get n_nan out i) y /\ 0 <= y /\ y <= M + tiny /\ y <= x + tiny /\ (x = 0 -> y = 0)) /\
   (forall i j x x' y y', (i < length A_obs)%nat -> (j < length A_obs)%nat ->
      is_num (get n_nan A_obs i) x -> is_num (get n_nan A_obs j) x' -> is_num (get n_nan out i) y -> is_num (get n_nan out j) y' ->
      x <= x' -> y <= y' + tiny)).
Proof.
  destruct run_table as (w & E & LW & W0 & NW & WU).
  set (RA := fun i => real_of (get n_nan tab i)). set (RW := fun i => real_of (get n_nan w i)).
  assert (NA : forall i, (i < 100)%nat -> is_num (get n_nan tab i) (RA i) /\ 0 <= RA i <= 1024).
  { intros i Hi. destruct (tab_range i Hi). apply (between_num _ (n_ofZ 0) (n_ofZ 1024)); auto; [apply (num_ofZ 0); lia|apply (num_ofZ 1024); lia]. }
  assert (AU : forall i, (i + 1 < 100)%nat -> RA i <= RA (i + 1)%nat).
  { intros i Hi. apply (leb_num _ _ _ _ (proj1 (NA i ltac:(lia))) (proj1 (NA (i + 1)%nat Hi))). apply tab_up; auto. }
  assert (W1 : forall i, (i < 100)%nat -> 0 <= RW i <= 1024) by (intros i Hi; pose proof (NW i Hi); unfold RW; lra).
  set (xp := map2 n_add tab w).
  assert (XN : forall i, (i < 100)%nat -> is_num (get n_nan xp i) (RX RA RW i)).
  { intros i Hi. apply (xp_num tab w RA RW 100); auto; try apply tab_len; try lia; intros; try apply NA; try apply NW; auto. }
  assert (PT : forall x r, is_num x r -> RX RA RW 0 <= r <= RX RA RW 99 -> exists y j, is_num (interp_point xp w x) y /\ found RA RW 100 r y j).
  { intros x r X Hr. apply (point tab w RA RW 100); auto; try apply tab_len; try lia; intros; try apply NA; try apply NW; auto. }
  assert (MO : forall r r' y y' j j', found RA RW 100 r y j -> found RA RW 100 r' y' j' -> r <= r' -> y <= y' + tiny)
    by exact (found_mono tab w RA RW 100 (tab_len) LW ltac:(lia) AU WU).
  assert (Z1 : is_num (n_ofZ 0) 0) by (apply (num_ofZ 0); lia).
  assert (X0 : RX RA RW 0 = 0).
  { unfold RX, RA, RW. rewrite tab_0, W0. unfold real_of. change (f_val (n_ofZ 0)) with (f_val (n_ofZ 0 : F64)). rewrite Z1. rewrite Rplus_0_l. apply rnd64_0. }
  assert (LX : length xp = 100%nat) by (unfold xp; rewrite map2_length; rewrite tab_len; auto).
  assert (RUN : forall A, run A = if existsb (fun x => n_ltb x zero) A then Err ValueError else interp1d_linear xp w A).
  { intros A. unfold run, waa_pastorek_2021_from_A_obs. destruct (existsb _ A); auto. cbv zeta. fold tab. rewrite rates_are. cbn [bind]. rewrite E. reflexivity. }
  exists (get n_nan xp 99). split.
  - destruct (exponents_checked) as (_ & E99 & _). apply f_same_eq in E99. rewrite <- E99, <- tab_S by lia.
    apply (leb_num _ _ _ _ (proj1 (NA 99%nat ltac:(lia))) (XN 99%nat ltac:(lia))). unfold RX. apply (num_le_rnd _ _ _ (proj1 (NA 99%nat ltac:(lia)))).
    pose proof (W1 99%nat ltac:(lia)). lra.
  - intros A_obs. rewrite RUN. unfold interp1d_linear. rewrite LX. change (100 - 1)%nat with 99%nat. split.
    + intros (x & Hx & C). destruct (existsb (fun x => n_ltb x zero) A_obs) eqn:E1; [reflexivity|].
      destruct (existsb (fun v => n_ltb v (get n_nan xp 0)) A_obs); [reflexivity|].
      destruct C as [C|C].
      * exfalso. assert (existsb (fun x => n_ltb x zero) A_obs = true) by (apply existsb_exists; exists x; auto). congruence.
      * assert (F : existsb (fun v => n_ltb (get n_nan xp 99) v) A_obs = true) by (apply existsb_exists; exists x; auto). rewrite F. reflexivity.
    + intros H.
      assert (NN : forall x, In x A_obs -> missing x \/ exists r, is_num x r /\ 0 <= r <= RX RA RW 99).
      { intros x Hx. destruct (H x Hx) as [|[H1 H2]]; auto. right. destruct (between_num x _ _ _ _ Z1 (XN 99%nat ltac:(lia)) H1 H2). eauto. }
      assert (F1 : forall v rv, is_num v rv -> rv <= 0 -> existsb (fun x => n_ltb x v) A_obs = false).
      { intros v rv V HV. apply not_true_iff_false. rewrite existsb_exists. intros (x & Hx & C). destruct (NN x Hx) as [N|(r & X & Hr)].
        - rewrite (ltb_nan_l F64sem) in C by exact N. discriminate.
        - apply (ltb_num _ _ _ _ X V) in C. lra. }
      rewrite (F1 zero 0), (F1 (get n_nan xp 0) (RX RA RW 0)) by (auto; try apply XN; try lia; lra).
      assert (F2 : existsb (fun v => n_ltb (get n_nan xp 99) v) A_obs = false).
      { apply not_true_iff_false. rewrite existsb_exists. intros (x & Hx & C). destruct (NN x Hx) as [N|(r & X & Hr)].
        - rewrite (ltb_nan_r F64sem) in C by exact N. discriminate.
        - apply (ltb_num _ _ _ _ (XN 99%nat ltac:(lia)) X) in C. lra. }
      rewrite F2. eexists. split; [reflexivity|]. split; [apply map_length|].
      assert (G : forall i, (i < length A_obs)%nat -> get n_nan (map (interp_point xp w) A_obs) i = interp_point xp w (get n_nan A_obs i)) by (intros; apply get_map; auto).
      assert (PP : forall i x, (i < length A_obs)%nat -> is_num (get n_nan A_obs i) x -> exists y j, is_num (interp_point xp w (get n_nan A_obs i)) y /\ found RA RW 100 x y j).
      { intros i x Hi X. apply PT; auto. destruct (NN (get n_nan A_obs i)) as [N|(r & X' & Hr)]; [apply nth_In; auto|unfold missing in N; rewrite (isnan_num _ _ X) in N; discriminate|].
        rewrite (num_unique _ _ _ X X'). rewrite X0. auto. }
      split; [|split].
      * intros i Hi N. rewrite G by auto. unfold interp_point. unfold missing in N. rewrite N. exact N.
      * intros i x Hi X. rewrite G by auto. destruct (PP i x Hi X) as (y & j & Y & Fd').
        exists y. split; [auto|]. destruct Fd' as (Hj & H1 & H2 & H3 & H4 & H5 & H6). pose proof (NW j Hj) as [_ WJ]. change (0 <= RW j <= M) in WJ.
        assert (TP : 0 < tiny) by (unfold tiny; apply Rinv_0_lt_compat, pow_lt; lra).
        split; [lra|]. split.
        { destruct (Nat.eq_dec (j + 1) 100) as [Q|Q]; [rewrite (H5 Q); lra|]. destruct (H6 ltac:(lia)) as (_ & H7 & _).
          pose proof (NW (j + 1)%nat ltac:(lia)) as [_ WJ']. change (0 <= RW (j + 1)%nat <= M) in WJ'. lra. }
        split; [lra|]. intros ->.
        assert (XJ : 0 <= RX RA RW j) by (unfold RX; apply rnd64_nonneg; pose proof (NA j Hj); lra).
        assert (WJ2 : RW j <= RX RA RW j). { unfold RX. apply (num_le_rnd _ _ _ (proj1 (NW j Hj))). pose proof (NA j Hj). fold RW. unfold RW. lra. }
        rewrite H4 by lra. lra.
      * intros i j x x' y y' Hi Hj X X' Y Y' C. rewrite G in Y by auto. rewrite G in Y' by auto.
        destruct (PP i x Hi X) as (z & k & Z & FZ). destruct (PP j x' Hj X') as (z' & k' & Z' & FZ').
        rewrite (num_unique _ _ _ Y Z), (num_unique _ _ _ Y' Z'). exact (MO _ _ _ _ _ _ FZ FZ' C).
Qed.
End Run.

(** ** correctly rounded powers of ten *)
Lemma F64cr_ten_sane : ten_sane F64cr.
Proof.
  assert (T10 : is_num (n_ofZ 10) 10) by (apply (num_ofZ 10); lia).
  assert (T3 : is_num (n_ofZ 3) 3) by (apply (num_ofZ 3); lia).
  assert (TM : is_num (n_ofZ (-10)) (-10)) by (apply (num_ofZ (-10)); lia).
  assert (V : forall x r, is_num x r -> f_val (m_pow F64cr (n_ofZ 10) x) = f_rnd (XFin (Rpower 10 r))).
  { intros x r X. change (m_pow F64cr (n_ofZ 10) x) with (f_of_xr (xpow (f_val (n_ofZ 10)) (f_val x))). rewrite f_of_xr_val. f_equal.
    unfold is_num in X, T10. rewrite X, T10. apply xpow_pos. lra. }
  assert (P : forall a b, a <= b -> Rpower 10 a <= Rpower 10 b) by (intros; apply Rle_Rpower; lra).
  assert (K : Rpower 10 3 = 1000) by (replace 3 with (INR 3) by (simpl; ring); rewrite Rpower_pow by lra; simpl; ring).
  split.
  - intros x y H1 H2 H3.
    assert (H4 : n_leb x (n_ofZ 3) = true) by exact (leb_trans F64sem _ _ _ H1 H2).
    assert (H5 : n_leb (n_ofZ (-10)) y = true) by exact (leb_trans F64sem _ _ _ H3 H1).
    destruct (between_num x _ _ _ _ TM T3 H3 H4) as [X _]. destruct (between_num y _ _ _ _ TM T3 H5 H2) as [Y _].
    apply (leb_num _ _ _ _ X Y) in H1.
    rewrite (val_leb _ F64sem). change (xleb (f_val (m_pow F64cr (n_ofZ 10) x)) (f_val (m_pow F64cr (n_ofZ 10) y)) = true).
    rewrite (V _ _ X), (V _ _ Y). apply f_rnd_mono. apply xleb_fin. auto.
  - intros x H1 H2. destruct (between_num x _ _ _ _ TM T3 H1 H2) as [X [Q1 Q2]].
    rewrite !(val_leb _ F64sem). 
    change (xleb (f_val (n_ofZ 0 : F64)) (f_val (m_pow F64cr (n_ofZ 10) x)) = true /\ xleb (f_val (m_pow F64cr (n_ofZ 10) x)) (f_val (n_ofZ 1024 : F64)) = true).
    rewrite (V _ _ X). rewrite <- (f_rnd_val (n_ofZ 0)), <- (f_rnd_val (n_ofZ 1024)). rewrite (num_ofZ 0), (num_ofZ 1024) by lia.
    split; apply f_rnd_mono; apply xleb_fin; [left; apply exp_pos|]. specialize (P _ _ Q2). lra.
Qed.
Lemma five_below_thousand : n_leb (n_ofZ 5) (m_pow F64cr (n_ofZ 10) (n_ofZ 3)) = true.
Proof.
  assert (T10 : is_num (n_ofZ 10) 10) by (apply (num_ofZ 10); lia).
  assert (T3 : is_num (n_ofZ 3) 3) by (apply (num_ofZ 3); lia).
  assert (T5 : is_num (n_ofZ 5) 5) by (apply (num_ofZ 5); lia).
  rewrite (val_leb _ F64sem). change (xleb (f_val (n_ofZ 5 : F64)) (f_val (f_of_xr (xpow (f_val (n_ofZ 10)) (f_val (n_ofZ 3))))) = true).
  rewrite f_of_xr_val. rewrite <- (f_rnd_val (n_ofZ 5)). unfold is_num in *. rewrite T10, T3, T5. apply f_rnd_mono. rewrite xpow_pos by lra. apply xleb_fin.
  replace 3 with (INR 3) by (simpl; ring). rewrite Rpower_pow by lra. simpl. lra.
Qed.
