(** Proofs about the Pastorek wet antenna functions. *)
From Coq Require Import List ZArith Bool String Reals Lra Lia.
From Flocq Require Import Core.Raux.
From Verif Require Import Base Num NumList NpOps Libm RealSpec KR_model KR_spec KR_proofs KR_proofs3
  Pastorek_model Pastorek_spec.
Import ListNotations.
Local Notation length := List.length.
Local Open Scope R_scope.

(** ** piecewise linear interpolation over the reals *)
Lemma piecewise_mono (X : nat -> R) (F : R -> R) : (forall i, X i < X (i + 1)%nat) ->
  forall n, (forall i x y, (i < n)%nat -> X i <= x -> x <= y -> y <= X (i + 1)%nat -> F x <= F y) ->
  forall x y, X 0%nat <= x -> x <= y -> y <= X n -> F x <= F y.
Proof.
  intros inc. induction n; intros HP x y H1 H2 H3.
  - replace y with x by lra. lra.
  - specialize (IHn (fun i x y Hi => HP i x y ltac:(lia))).
    replace (S n) with (n + 1)%nat in H3 by lia.
    destruct (Rle_dec y (X n)); [apply IHn; lra|].
    destruct (Rle_dec (X n) x); [apply (HP n); auto; lra|].
    apply Rle_trans with (F (X n)); [apply IHn; lra|apply (HP n); try lia; lra].
Qed.

Section Lin.
Variables (X W : list R).
Notation n := (length X).
Fixpoint idx (x : R) (k : nat) : nat :=
  match k with 0%nat => 0%nat | S j => if Rle_bool (rget X k) x then k else idx x j end.
Definition slope (j : nat) : R := (rget W (j + 1) - rget W j) / (rget X (j + 1) - rget X j).
Definition lin (x : R) : R :=
  let j := idx x (n - 1) in
  if Nat.eqb j (n - 1) then rget W j else slope j * (x - rget X j) + rget W j.

Lemma idx_le x k : (idx x k <= k)%nat.
Proof. induction k; simpl; auto. destruct (Rle_bool _ _); lia. Qed.

Lemma idx_spec x k : rget X 0 <= x -> rget X (idx x k) <= x /\ forall j, (idx x k < j <= k)%nat -> x < rget X j.
Proof.
  intros H0. induction k; cbn [idx].
  - split; auto. intros; lia.
  - destruct (Rle_bool_spec (rget X (S k)) x).
    + split; auto. intros; lia.
    + destruct IHk as [A B]. split; auto. intros j Hj. destruct (Nat.eq_dec j (S k)); [subst; lra|apply B; lia].
Qed.

Hypothesis n1 : (1 <= n)%nat.
Hypothesis inc : forall i, (i + 1 < n)%nat -> rget X i < rget X (i + 1).

Lemma X_mono i j : (i <= j)%nat -> (j < n)%nat -> rget X i <= rget X j.
Proof.
  intros Hij. induction Hij; intros Hj; [lra|]. specialize (IHHij ltac:(lia)).
  pose proof (inc m ltac:(lia)). replace (m + 1)%nat with (S m) in H by lia. lra.
Qed.

Lemma lin_piece i x : (i + 1 < n)%nat -> rget X i <= x <= rget X (i + 1) -> lin x = slope i * (x - rget X i) + rget W i.
Proof.
  intros Hi Hx. unfold lin.
  assert (H0 : rget X 0 <= x) by (pose proof (X_mono 0 i ltac:(lia) ltac:(lia)); lra).
  destruct (idx_spec x (n - 1) H0) as [A B]. pose proof (idx_le x (n - 1)) as C.
  set (k := idx x (n - 1)) in *.
  assert (i <= k)%nat. { destruct (le_lt_dec i k); auto. specialize (B i ltac:(lia)). lra. }
  pose proof (inc i Hi) as Ii.
  destruct (Nat.eq_dec k i) as [->|NE].
  - destruct (Nat.eqb_spec i (n - 1)); [lia|]. reflexivity.
  - assert (rget X (i + 1) <= rget X k) by (apply X_mono; lia).
    assert (Et : x = rget X (i + 1)) by lra.
    assert (Ek : k = (i + 1)%nat).
    { destruct (Nat.eq_dec k (i + 1)); auto. exfalso. pose proof (inc (i + 1) ltac:(lia)).
      pose proof (X_mono (i + 1 + 1) k ltac:(lia) ltac:(lia)). lra. }
    rewrite Ek. assert (EW : slope i * (x - rget X i) + rget W i = rget W (i + 1)).
    { rewrite Et. unfold slope. field. lra. }
    rewrite EW. rewrite Et. replace (rget X (i + 1) - rget X (i + 1)) with 0 by ring. rewrite Rmult_0_r, Rplus_0_l.
    destruct (Nat.eqb _ _); auto.
Qed.

Lemma lin_node i : (i < n)%nat -> lin (rget X i) = rget W i.
Proof.
  intros Hi. destruct (Nat.eq_dec (i + 1) n) as [E|NE].
  - destruct (Nat.eq_dec i 0) as [->|N0].
    + unfold lin. assert (n = 1)%nat by lia. rewrite H. simpl. reflexivity.
    + assert (K : (i - 1 + 1)%nat = i) by lia. pose proof (inc (i - 1) ltac:(lia)) as I. rewrite K in I.
      rewrite (lin_piece (i - 1)) by (rewrite ?K; try lia; lra). unfold slope. rewrite K. field. lra.
  - rewrite (lin_piece i); [ring|lia|]. pose proof (inc i ltac:(lia)). lra.
Qed.

Hypothesis LW : length W = n.
Hypothesis dW : forall i, (i + 1 < n)%nat -> 0 <= rget W (i + 1) - rget W i <= rget X (i + 1) - rget X i.

Lemma slope_range i : (i + 1 < n)%nat -> 0 <= slope i <= 1.
Proof.
  intros Hi. pose proof (inc i Hi). pose proof (dW i Hi). unfold slope. split.
  - apply Rmult_le_pos; [lra|]. left. apply Rinv_0_lt_compat. lra.
  - apply Rmult_le_reg_r with (rget X (i + 1) - rget X i); [lra|]. unfold Rdiv. rewrite Rmult_assoc, Rinv_l by lra. lra.
Qed.

Lemma lin_mono x y : rget X 0 <= x -> x <= y -> y <= rget X (n - 1) ->
  lin x <= lin y /\ x - lin x <= y - lin y.
Proof.
  set (XX := fun i => if Nat.ltb i n then rget X i else rget X (n - 1) + INR (i + 1 - n)).
  assert (XI : forall i, XX i < XX (i + 1)%nat).
  { intros i. unfold XX. destruct (Nat.ltb_spec i n), (Nat.ltb_spec (i + 1) n); try lia.
    - apply inc; auto.
    - replace i with (n - 1)%nat by lia. replace (n - 1 + 1 + 1 - n)%nat with 1%nat by lia. simpl. lra.
    - replace (i + 1 + 1 - n)%nat with (S (i + 1 - n)) by lia. rewrite S_INR. lra. }
  assert (XE : forall i, (i < n)%nat -> XX i = rget X i).
  { intros i Hi. unfold XX. destruct (Nat.ltb_spec i n); auto; lia. }
  assert (X0 : XX 0%nat = rget X 0) by (apply XE; lia).
  assert (XN : XX (n - 1)%nat = rget X (n - 1)) by (apply XE; lia).
  intros H1 H2 H3. rewrite <- X0 in H1. rewrite <- XN in H3. split.
  - apply (piecewise_mono XX lin XI (n - 1)); auto.
    intros i u v Hi A B C. rewrite !XE in * by lia. rewrite !(lin_piece i) by (try lia; lra).
    pose proof (slope_range i ltac:(lia)). apply Rplus_le_compat_r. apply Rmult_le_compat_l; lra.
  - apply (piecewise_mono XX (fun t => t - lin t) XI (n - 1)); auto.
    intros i u v Hi A B C. rewrite !XE in * by lia. rewrite !(lin_piece i) by (try lia; lra).
    pose proof (slope_range i ltac:(lia)). nra.
Qed.
End Lin.

(** ** the interpolation model on real tables *)
Lemma interp_index_XR X x k : (k < length X)%nat -> interp_index (ofR X) (XFin x : XR) k = idx X x k.
Proof.
  induction k; intros Hk; cbn [interp_index idx]; auto.
  rewrite (ofR_get n_nan X (S k) Hk). rewrite IHk by lia. reflexivity.
Qed.

Lemma interp_point_XR X W x : (1 <= length X)%nat -> length W = length X ->
  (forall i, (i + 1 < length X)%nat -> rget X i < rget X (i + 1)) ->
  interp_point (ofR X) (ofR W) (XFin x : XR) = (XFin (lin X W x) : XR).
Proof.
  intros N LW inc. unfold interp_point. change (n_isnan (XFin x : XR)) with false. cbv iota.
  rewrite ofR_length. rewrite interp_index_XR by lia. unfold lin.
  pose proof (idx_le X x (length X - 1)) as C. set (j := idx X x (length X - 1)) in *. cbv zeta.
  destruct (Nat.eqb_spec j (length X - 1)).
  - rewrite (ofR_get n_nan W j) by lia. reflexivity.
  - rewrite (ofR_get n_nan X j) by lia. rewrite (ofR_get n_nan W j) by lia.
    change (n_eqb (XFin (rget X j) : XR) (XFin x : XR)) with (Req_bool (rget X j) x).
    destruct (Req_bool_spec (rget X j) x) as [E|NE].
    + rewrite E. f_equal. ring.
    + rewrite (ofR_get n_nan X (j + 1)) by lia. rewrite (ofR_get n_nan W (j + 1)) by lia.
      pose proof (inc j ltac:(lia)) as I.
      change (n_sub (XFin (rget W (j + 1)) : XR) (XFin (rget W j) : XR)) with (XFin (rget W (j + 1) - rget W j) : XR).
      change (n_sub (XFin (rget X (j + 1)) : XR) (XFin (rget X j) : XR)) with (XFin (rget X (j + 1) - rget X j) : XR).
      change (n_div (XFin (rget W (j + 1) - rget W j) : XR) (XFin (rget X (j + 1) - rget X j) : XR))
        with (xdiv (XFin (rget W (j + 1) - rget W j)) (XFin (rget X (j + 1) - rget X j)) : XR).
      rewrite xdiv_fin by lra. reflexivity.
Qed.

(** ** waa_pastorek_2021 *)
Lemma wet_antenna_props A_max zeta d : 0 < A_max -> 0 < zeta -> 0 < d ->
  wet_antenna A_max zeta d 0 = 0 /\
  (forall r, 0 <= r -> 0 <= wet_antenna A_max zeta d r < A_max) /\
  (forall r r', 0 <= r -> r < r' -> wet_antenna A_max zeta d r < wet_antenna A_max zeta d r').
Proof.
  intros HA Hz Hd. unfold wet_antenna.
  assert (E : forall r, 0 < r -> 0 < exp (- d * Rpower r zeta) < 1).
  { intros r Hr. split; [apply exp_pos|]. rewrite <- exp_0. apply exp_increasing. pose proof (Rpower_pos r zeta). nra. }
  split; [destruct (Req_EM_T 0 0); lra|]. split.
  - intros r Hr. destruct (Req_EM_T r 0); [lra|]. pose proof (E r ltac:(lra)). nra.
  - intros r r' Hr Hrr. destruct (Req_EM_T r' 0); [lra|]. destruct (Req_EM_T r 0).
    + pose proof (E r' ltac:(lra)). nra.
    + assert (exp (- d * Rpower r' zeta) < exp (- d * Rpower r zeta)); [|nra].
      apply exp_increasing. assert (Rpower r zeta < Rpower r' zeta) by (apply Rlt_Rpower_l; lra). nra.
Qed.

Lemma pastorek_exact (Rs : list R) A_max zeta d : 0 < zeta -> (forall r, In r Rs -> 0 <= r) ->
  waa_pastorek_2021 XRm (SArray (ofR Rs)) (XFin A_max : XR) (XFin zeta : XR) (XFin d : XR)
  = Ok (ofR (map (wet_antenna A_max zeta d) Rs)).
Proof.
  intros Hz HR. unfold waa_pastorek_2021. f_equal.
  apply get_ext with (d := (n_nan : XR)).
  - rewrite mask_fill_length by (rewrite !map_length; auto). unfold ofR. rewrite !map_length. auto.
  - rewrite mask_fill_length by (rewrite !map_length; auto). rewrite map_length, ofR_length. intros i Hi.
    rewrite mask_fill_get by (rewrite ?map_length, ?ofR_length; auto).
    rewrite !get_map with (d := (n_nan : XR)) by (rewrite ofR_length; auto).
    rewrite !ofR_get by (rewrite ?map_length; auto). unfold rget at 3. rewrite get_map with (d := 0) by auto. fold (rget Rs i).
    assert (Hr : 0 <= rget Rs i) by (apply HR; apply get_In; auto).
    change (n_eqb (XFin (rget Rs i) : XR) zero) with (Req_bool (rget Rs i) 0). unfold wet_antenna.
    destruct (Req_bool_spec (rget Rs i) 0), (Req_EM_T (rget Rs i) 0); try contradiction; [reflexivity|].
    assert (EP : m_pow XRm (XFin (rget Rs i) : XR) (XFin zeta : XR) = (XFin (Rpower (rget Rs i) zeta) : XR)) by (apply xpow_pos; lra).
    rewrite EP. simpl. f_equal. 
Qed.

(** ** the look-up table *)
Lemma A_rain_length : length (A_rain_table (O := XR) XRm) = 100%nat.
Proof. unfold A_rain_table. rewrite upd_length, map_length. unfold np_linspace. rewrite app_length, map_length, seq_length. reflexivity. Qed.

Lemma table_rain_props : table_rain 0 = 0 /\ (forall i, table_rain i < table_rain (i + 1)) /\ table_rain 99 = 1000.
Proof.
  split; [reflexivity|]. split.
  - intros i. unfold table_rain. replace (Nat.eqb (i + 1) 0) with false by (symmetry; apply Nat.eqb_neq; lia).
    destruct (Nat.eqb i 0); [apply Rpower_pos|]. apply Rpower_lt; [lra|]. rewrite plus_INR. simpl (INR 1). lra.
  - unfold table_rain. change (Nat.eqb 99 0) with false. cbv iota.
    replace (-10 + INR 99 * (13 / 99)) with (INR 3).
    + rewrite Rpower_pow by lra. simpl. lra.
    + rewrite !INR_IZR_INZ. simpl Z.of_nat. lra.
Qed.

Lemma nth_map_seq {A} (f : nat -> A) k i (d : A) : (i < k)%nat -> nth i (map f (seq 0 k)) d = f i.
Proof. intros. rewrite nth_indep with (d' := f 0%nat) by (rewrite map_length, seq_length; auto). rewrite map_nth, seq_nth by auto. reflexivity. Qed.

Lemma A_rain_get i : (i < 100)%nat -> get (n_nan : XR) (A_rain_table XRm) i = (XFin (table_rain i) : XR).
Proof.
  intros Hi. unfold A_rain_table.
  assert (LS : length (np_linspace (n_ofZ (-10) : XR) (n_ofZ 3) 100) = 100%nat)
    by (unfold np_linspace; rewrite app_length, map_length, seq_length; reflexivity).
  destruct (Nat.eq_dec i 0) as [->|N0].
  - rewrite get_upd_eq by (rewrite map_length, LS; lia). reflexivity.
  - rewrite get_upd_neq by lia. rewrite get_map with (d := (n_nan : XR)) by lia.
    unfold table_rain. destruct (Nat.eqb_spec i 0); [contradiction|].
    assert (EX : get (n_nan : XR) (np_linspace (n_ofZ (-10) : XR) (n_ofZ 3) 100) i = (XFin (-10 + INR i * (13 / 99)) : XR)).
    { unfold np_linspace. destruct (Nat.eq_dec i 99) as [->|N99].
      - unfold get. rewrite app_nth2 by (rewrite map_length, seq_length; lia). rewrite map_length, seq_length.
        change (99 - (100 - 1))%nat with 0%nat. simpl nth. f_equal. rewrite INR_IZR_INZ. simpl Z.of_nat. lra.
      - unfold get. rewrite app_nth1 by (rewrite map_length, seq_length; lia).
        rewrite nth_map_seq by lia.
        change (n_div (n_sub (n_ofZ 3) (n_ofZ (-10))) (n_ofZ (Z.of_nat (100 - 1))))
          with (xdiv (XFin (3 - -10)) (XFin (IZR (Z.of_nat (100 - 1)))) : XR).
        rewrite xdiv_fin by (apply not_0_IZR; discriminate).
        change (n_add (n_mul (n_ofZ (Z.of_nat i)) (XFin ?s : XR)) (n_ofZ (-10))) with (XFin (IZR (Z.of_nat i) * s + -10) : XR).
        f_equal. rewrite INR_IZR_INZ. change (Z.of_nat (100 - 1)) with 99%Z. apply f_equal. lra. }
    rewrite EX. apply xpow_pos. apply IZR_lt. lia.
Qed.

Definition tab (f : nat -> R) : list R := map f (seq 0 100).
Lemma tab_length f : length (tab f) = 100%nat. Proof. unfold tab. rewrite map_length, seq_length. auto. Qed.
Lemma tab_get f i : (i < 100)%nat -> rget (tab f) i = f i.
Proof. intros. unfold rget, tab. rewrite get_map with (d := 0%nat) by (rewrite seq_length; auto). unfold get. rewrite seq_nth by auto. reflexivity. Qed.

Lemma A_rain_eq : A_rain_table XRm = ofR (tab table_rain).
Proof.
  apply get_ext with (d := (n_nan : XR)); [rewrite A_rain_length, ofR_length, tab_length; auto|].
  rewrite A_rain_length. intros i Hi. rewrite A_rain_get by auto.
  rewrite ofR_get by (rewrite tab_length; auto). rewrite tab_get by auto. reflexivity.
Qed.

Lemma ofR_map_tab (f : XR -> XR) (g h : nat -> R) : (forall i, (i < 100)%nat -> f (XFin (g i) : XR) = (XFin (h i) : XR)) ->
  map f (ofR (tab g)) = ofR (tab h).
Proof.
  intros H. unfold ofR, tab. rewrite !map_map. apply map_ext_in. intros i Hi. apply in_seq in Hi. apply H. lia.
Qed.

Lemma map2_tab (f g : nat -> R) : map2 n_add (ofR (tab f)) (ofR (tab g)) = ofR (tab (fun i => f i + g i)).
Proof. reflexivity. Qed.

Lemma from_A_obs_exact cubic f l A_max zeta d pol :
  exact_cubic cubic -> 1 <= f / 10 ^ 9 <= 100 -> horizontal pol \/ vertical pol ->
  0 < l -> 0 < A_max -> 0 < zeta -> 0 < d ->
  exists (a b amax : R) (g : R -> R),
    a_b cubic [XFin (f / 10 ^ 9) : XR] (PolStr pol) "ITU_2005" = Ok ([XFin a : XR], [XFin b : XR]) /\ 0 < a /\ 0 < b /\
    1000 <= amax /\ g 0 = 0 /\
    (forall x y, 0 <= x -> x <= y -> y <= amax -> g x <= g y /\ x - g x <= y - g y) /\
    (forall x, 0 <= x <= amax -> 0 <= g x <= x /\ g x < A_max) /\
    (forall i, (i < 100)%nat ->
       let w := wet_antenna A_max zeta d (rain_of a b l (table_rain i)) in g (table_rain i + w) = w) /\
    (forall A_obs : list XR,
      let run := waa_pastorek_2021_from_A_obs XRm cubic A_obs (XFin f : XR) pol (XFin l : XR) (XFin A_max : XR) (XFin zeta : XR) (XFin d : XR) in
      ((exists x, In x A_obs /\ n_ltb x (XFin 0 : XR) = true) -> run = Err ValueError) /\
      ((exists x, In x A_obs /\ n_ltb (XFin amax : XR) x = true) -> run = Err ValueError) /\
      ((forall x, In x A_obs -> n_ltb x (XFin 0 : XR) = false /\ n_ltb (XFin amax : XR) x = false) ->
         run = Ok (map (on_number g) A_obs))).
Proof.
  intros Hc Hf Hp Hl HA Hz Hd.
  destruct (a_b_exact cubic Hc [f / 10 ^ 9] (PolStr pol) "ITU_2005" Itu_table.ITU_table_2005) as (la & lb & E & La & Lb & G); auto.
  { discriminate. } { intros x [<-|[]]; auto. } { intros s [<-|[]]; auto. }
  destruct (G 0%nat ltac:(simpl; lia)) as (Pa & Pb & _).
  destruct la as [|a [|a1 la]]; try discriminate. destruct lb as [|b [|b1 lb]]; try discriminate.
  unfold rget, get in Pa, Pb. simpl in Pa, Pb. clear G La Lb.
  set (rr := fun i => rain_of a b l (table_rain i)).
  set (ww := fun i => wet_antenna A_max zeta d (rr i)).
  set (X := tab (fun i => table_rain i + ww i)). set (W := tab ww).
  destruct table_rain_props as (T0 & TI & T99). destruct (wet_antenna_props A_max zeta d HA Hz Hd) as (W0 & WR & WM).
  assert (Pal : 0 < a * l) by (apply Rmult_lt_0_compat; auto).
  assert (Tpos : forall i, (0 < i)%nat -> 0 < table_rain i).
  { induction i as [|i IH]; intros Hi; [lia|]. specialize (TI i). replace (i + 1)%nat with (S i) in TI by lia.
    destruct i; [rewrite T0 in TI; auto|]. specialize (IH ltac:(lia)). lra. }
  assert (R0 : forall i, 0 <= rr i).
  { intros i. unfold rr, rain_of. destruct (Req_EM_T _ _); [lra|]. left. apply Rpower_pos. }
  assert (RM : forall i, rr i < rr (i + 1)%nat).
  { intros i. unfold rr, rain_of. pose proof (Tpos (i + 1)%nat ltac:(lia)). destruct (Req_EM_T (table_rain (i + 1)) 0); [lra|].
    destruct (Req_EM_T (table_rain i) 0); [apply Rpower_pos|]. apply Rlt_Rpower_l; [apply Rdiv_lt_0_compat; lra|].
    assert (0 < table_rain i). { destruct i; [rewrite T0 in *; lra|apply Tpos; lia]. }
    split; [apply Rdiv_lt_0_compat; lra|]. unfold Rdiv. apply Rmult_lt_compat_r; [apply Rinv_0_lt_compat; auto|apply TI]. }
  assert (LX : length X = 100%nat) by apply tab_length. assert (LW : length W = 100%nat) by apply tab_length.
  assert (WMi : forall i, ww i < ww (i + 1)%nat) by (intros; apply WM; auto).
  assert (GX : forall i, (i < 100)%nat -> rget X i = table_rain i + ww i) by (intros; apply tab_get; auto).
  assert (GW : forall i, (i < 100)%nat -> rget W i = ww i) by (intros; apply tab_get; auto).
  assert (inc : forall i, (i + 1 < length X)%nat -> rget X i < rget X (i + 1)).
  { intros i Hi. rewrite LX in Hi. rewrite !GX by lia. pose proof (TI i). pose proof (WMi i). lra. }
  assert (dW : forall i, (i + 1 < length X)%nat -> 0 <= rget W (i + 1) - rget W i <= rget X (i + 1) - rget X i).
  { intros i Hi. rewrite LX in Hi. rewrite !GX, !GW by lia. pose proof (TI i). pose proof (WMi i). lra. }
  assert (ww0 : ww 0%nat = 0).
  { unfold ww, rr, rain_of. rewrite T0. destruct (Req_EM_T 0 0); [apply W0|lra]. }
  assert (X0 : rget X 0 = 0) by (rewrite GX by lia; rewrite T0, ww0; lra).
  assert (XN : rget X (length X - 1) = 1000 + ww 99%nat) by (rewrite LX; simpl; rewrite GX by lia; rewrite T99; auto).
  set (amax := 1000 + ww 99%nat) in *. set (g := lin X W).
  assert (g0 : g 0 = 0). { unfold g. rewrite <- X0. rewrite lin_node by (auto; lia). rewrite GW by lia. lra. }
  assert (gm : forall x y, 0 <= x -> x <= y -> y <= amax -> g x <= g y /\ x - g x <= y - g y).
  { intros x y H1 H2 H3. apply lin_mono; auto; try lia; rewrite ?X0, ?XN; auto. }
  assert (gN : g amax = ww 99%nat). { unfold g. rewrite <- XN, LX. rewrite lin_node by (auto; lia). apply GW. lia. }
  assert (Pamax : 1000 <= amax) by (unfold amax; pose proof (WR (rr 99%nat) (R0 99%nat)); unfold ww; lra).
  exists a, b, amax, g. split; [exact E|]. split; [exact Pa|]. split; [exact Pb|]. split; [exact Pamax|]. split; [exact g0|].
  split; [exact gm|]. split.
  { intros x Hx. destruct (gm 0 x) as [A1 A2]; try lra. destruct (gm x amax) as [A3 _]; try lra.
    rewrite g0 in *. rewrite gN in A3. pose proof (WR (rr 99%nat) (R0 99%nat)). unfold ww in A3. lra. }
  split.
  { intros i Hi w. unfold g. change w with (ww i). rewrite <- GX by auto. rewrite lin_node by (auto; lia). apply GW; auto. }
  intros A_obs run.
  assert (NZ : forall x : XR, n_ltb x zero = n_ltb x (XFin 0 : XR)) by reflexivity.
  assert (RUN : existsb (fun x : XR => n_ltb x zero) A_obs = false ->
     run = interp1d_linear (ofR X) (ofR W) A_obs).
  { intros EX. unfold run, waa_pastorek_2021_from_A_obs. rewrite EX. cbv zeta.
    change (n_div (XFin f : XR) (n_ofZ (10 ^ 9))) with (xdiv (XFin f) (XFin (IZR (10 ^ 9))) : XR).
    rewrite xdiv_fin by (apply not_0_IZR; discriminate).
    replace (f / IZR (10 ^ 9)) with (f / 10 ^ 9) by (f_equal; simpl; lra).
    rewrite (calc_single_freq XRsem XRm cubic _ _ _ _ _ (XFin a : XR) (XFin b : XR)); [|apply pos_XR; auto|exact E].
    rewrite (calc_scalar XRsem) by (apply pos_XR; auto). cbn [bind].
    assert (EB : n_div (one : XR) (XFin b : XR) = (XFin (1 / b) : XR)) by (apply (xdiv_fin 1 b); lra).
    rewrite EB. change (n_mul (XFin a : XR) (XFin l : XR)) with (XFin (a * l) : XR).
    rewrite A_rain_eq.
    rewrite (ofR_map_tab _ table_rain rr).
    2:{ intros i Hi. change (zero : XR) with (XFin 0 : XR). unfold rr, rain_of. destruct (Req_EM_T (table_rain i) 0) as [E0|N0].
        - rewrite E0. apply rate_exact_0; auto. apply Rdiv_lt_0_compat; lra.
        - assert (0 < table_rain i). { destruct i; [rewrite T0 in *; lra|apply Tpos; lia]. }
          rewrite rate_exact_pos by auto. rewrite Rlt_bool_false; auto. left. apply Rpower_pos. }
    rewrite pastorek_exact; [|exact Hz|].
    2:{ intros r Hr. unfold tab in Hr. apply in_map_iff in Hr as (i & <- & _). apply R0. }
    cbn [bind]. replace (map (wet_antenna A_max zeta d) (tab rr)) with W by (unfold W, tab, ww; rewrite map_map; auto).
    unfold W. rewrite map2_tab. reflexivity. }
  assert (LO : get (n_nan : XR) (ofR X) 0 = (XFin 0 : XR)) by (rewrite ofR_get by lia; rewrite X0; auto).
  assert (HI : get (n_nan : XR) (ofR X) (length (ofR X) - 1) = (XFin amax : XR)) by (rewrite ofR_length, ofR_get by lia; rewrite XN; auto).
  split; [|split].
  - intros (x & Hx & Lx). unfold run, waa_pastorek_2021_from_A_obs.
    assert (existsb (fun x : XR => n_ltb x zero) A_obs = true) as -> by (apply existsb_exists; exists x; auto). reflexivity.
  - intros (x & Hx & Lx). destruct (existsb (fun x : XR => n_ltb x zero) A_obs) eqn:EX.
    + unfold run, waa_pastorek_2021_from_A_obs. rewrite EX. reflexivity.
    + rewrite (RUN eq_refl). unfold interp1d_linear. rewrite LO, HI.
      assert (existsb (fun v : XR => n_ltb v (XFin 0 : XR)) A_obs = false) as -> by exact EX.
      assert (existsb (fun v : XR => n_ltb (XFin amax : XR) v) A_obs = true) as -> by (apply existsb_exists; exists x; auto).
      reflexivity.
  - intros H.
    assert (EX : existsb (fun x : XR => n_ltb x zero) A_obs = false).
    { apply not_true_is_false. intros C. apply existsb_exists in C as (x & Hx & C). rewrite NZ in C. destruct (H x Hx). congruence. }
    rewrite (RUN EX). unfold interp1d_linear. rewrite LO, HI.
    assert (existsb (fun v : XR => n_ltb v (XFin 0 : XR)) A_obs = false) as -> by exact EX.
    assert (existsb (fun v : XR => n_ltb (XFin amax : XR) v) A_obs = false) as ->.
    { apply not_true_is_false. intros C. apply existsb_exists in C as (x & Hx & C). destruct (H x Hx). congruence. }
    f_equal. apply map_ext_in. intros x Hx. destruct (H x Hx) as [H1 H2].
    destruct x as [| |r|]; try discriminate; [reflexivity|]. rewrite interp_point_XR; auto; lia.
Qed.

Lemma pastorek_range (Rs : list R) A_max zeta d : 0 < A_max -> 0 < zeta -> 0 < d -> (forall r, In r Rs -> 0 <= r) ->
  exists w : list R,
    waa_pastorek_2021 XRm (SArray (ofR Rs)) (XFin A_max : XR) (XFin zeta : XR) (XFin d : XR) = Ok (ofR w) /\
    length w = length Rs /\
    (forall i, (i < length Rs)%nat -> 0 <= rget w i < A_max /\ (rget Rs i = 0 -> rget w i = 0)) /\
    (forall i j, (i < length Rs)%nat -> (j < length Rs)%nat -> rget Rs i < rget Rs j -> rget w i < rget w j).
Proof.
  intros HA Hz Hd HR. destruct (wet_antenna_props A_max zeta d HA Hz Hd) as (W0 & WR & WM).
  assert (G : forall i, (i < length Rs)%nat -> 0 <= rget Rs i) by (intros; apply HR; apply get_In; auto).
  assert (GM : forall i, (i < length Rs)%nat -> rget (map (wet_antenna A_max zeta d) Rs) i = wet_antenna A_max zeta d (rget Rs i)).
  { intros i Hi. unfold rget. apply get_map; auto. }
  exists (map (wet_antenna A_max zeta d) Rs). split; [apply pastorek_exact; auto|]. split; [apply map_length|]. split.
  - intros i Hi. rewrite GM by auto. split; [apply WR; apply G; auto|]. intros E. rewrite E. apply W0.
  - intros i j Hi Hj L. rewrite !GM by auto. apply WM; auto.
Qed.

Section Any.
Context {O : numops} (S : numsem O) (L : libm O).

Lemma pastorek_scalar (r A_max zeta d : O) : waa_pastorek_2021 L (SScalar r) A_max zeta d = Err TypeError.
Proof. reflexivity. Qed.

Lemma pastorek_negative cubic (A_obs : list O) f pol l A_max zeta d :
  (exists x, In x A_obs /\ n_ltb x (n_ofZ 0) = true) ->
  waa_pastorek_2021_from_A_obs L cubic A_obs f pol l A_max zeta d = Err ValueError.
Proof.
  intros (x & Hx & Lx). unfold waa_pastorek_2021_from_A_obs.
  replace (existsb (fun x : O => n_ltb x zero) A_obs) with true; auto. symmetry. apply existsb_exists. exists x; auto.
Qed.

Lemma pastorek_masked (R : list O) (A_max zeta d : O) :
  exists w, waa_pastorek_2021 L (SArray R) A_max zeta d = Ok w /\ length w = length R /\
  forall i, (i < length R)%nat -> n_eqb (get n_nan R i) (n_ofZ 0) = true -> get n_nan w i = n_ofZ 0.
Proof.
  eexists. split; [reflexivity|]. split; [rewrite mask_fill_length; rewrite !map_length; auto|].
  intros i Hi H. rewrite mask_fill_get by (rewrite !map_length; auto).
  rewrite get_map with (d := n_nan) by auto. unfold zero. rewrite H. reflexivity.
Qed.
End Any.

Lemma wet_antenna_case : wet_antenna 14 1 1 (ln 2) = 7.
Proof.
  assert (0 < ln 2) by (rewrite <- ln_1; apply ln_increasing; lra).
  unfold wet_antenna. destruct (Req_EM_T (ln 2) 0); [lra|]. rewrite Rpower_1 by auto.
  replace (- (1) * ln 2) with (- ln 2) by ring. rewrite exp_Ropp, exp_ln by lra. lra.
Qed.
