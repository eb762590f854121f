From Coq Require Import List ZArith Bool Lia Arith Reals Lra.
From Flocq Require Import Core IEEE754.BinarySingleNaN Relative.
From Verif Require Import Base Num NumF64 NumList Libm Grid_spec Grid64_model Grid64_spec.
Import ListNotations.
Local Open Scope nat_scope.
Local Notation V := f_val.

(** ** integers *)
Lemma rnd_int k : (Z.abs k <= 2 ^ 53)%Z -> f_rnd (XFin (IZR k)) = XFin (IZR k).
Proof. intros H. rewrite <- (f_val_ofZ_exact k H). apply f_rnd_val. Qed.

Definition is_int (x : F64) (a : Z) : Prop := V x = XFin (IZR a).
Lemma int_add x y a b : is_int x a -> is_int y b -> (Z.abs (a + b) <= 2 ^ 53)%Z -> is_int (n_add x y) (a + b).
Proof. unfold is_int. intros H K B. change (n_add x y) with (f_add x y). rewrite f_val_add, H, K. cbn [xadd]. rewrite <- plus_IZR. apply rnd_int; auto. Qed.
Lemma int_sub x y a b : is_int x a -> is_int y b -> (Z.abs (a - b) <= 2 ^ 53)%Z -> is_int (n_sub x y) (a - b).
Proof.
  unfold is_int. intros H K B. change (n_sub x y) with (f_sub x y). rewrite f_val_sub, H, K. unfold xsub. cbn [xopp xadd]. rewrite <- opp_IZR, <- plus_IZR.
  apply rnd_int; auto.
Qed.
Lemma int_mul x y a b : is_int x a -> is_int y b -> (Z.abs (a * b) <= 2 ^ 53)%Z -> is_int (n_mul x y) (a * b).
Proof. unfold is_int. intros H K B. change (n_mul x y) with (f_mul x y). rewrite f_val_mul, H, K. cbn [xmul]. rewrite <- mult_IZR. apply rnd_int; auto. Qed.
Lemma int_ofZ a : (Z.abs a <= 2 ^ 53)%Z -> is_int (n_ofZ a : F64) a.
Proof. apply f_val_ofZ_exact. Qed.
Lemma int_ltb x y a b : is_int x a -> is_int y b -> n_ltb x y = (a <? b)%Z.
Proof.
  unfold is_int. intros H K. rewrite (val_ltb _ F64sem). change (val F64sem) with f_val. rewrite H, K. cbn [xltb].
  destruct (Z.ltb_spec a b); [apply Rlt_bool_true, IZR_lt; auto|apply Rlt_bool_false, IZR_le; auto].
Qed.
Lemma int_eqb x y a b : is_int x a -> is_int y b -> n_eqb x y = (a =? b)%Z.
Proof.
  unfold is_int. intros H K. rewrite (val_eqb _ F64sem). change (val F64sem) with f_val. rewrite H, K. cbn [xeqb].
  destruct (Z.eqb_spec a b); [apply Req_bool_true; congruence|apply Req_bool_false; intros E; apply eq_IZR in E; auto].
Qed.

(** ** ceil *)
Lemma finite_val x r : V x = XFin r -> is_finite x = true /\ B2R x = r.
Proof. destruct x as [| [] | |]; cbn [f_val]; intros E; try discriminate; split; auto; congruence. Qed.

Lemma f_ceil_spec x r : V x = XFin r -> (0 <= r <= IZR (2 ^ 53))%R -> f_ceil x = Zceil r.
Proof.
  intros H B. destruct (finite_val x r H) as [F E]. unfold f_ceil.
  pose proof (Btrunc_correct 53 1024 ltac:(reflexivity) x) as T. rewrite E in T.
  assert (TT : Btrunc x = Ztrunc r).
  { apply eq_IZR. rewrite T. unfold round, scaled_mantissa, F2R, cexp, FIX_exp. simpl. rewrite !Rmult_1_r. auto. }
  rewrite TT. rewrite Ztrunc_floor by lra.
  assert (BF : (0 <= Zfloor r <= 2 ^ 53)%Z).
  { split; [apply Zfloor_lub; simpl; lra|]. apply le_IZR. apply Rle_trans with r; [apply Zfloor_lb|lra]. }
  pose proof (Zfloor_lb r) as L. pose proof (Zfloor_ub r) as U.
  rewrite (val_ltb _ F64sem). change (val F64sem) with f_val. rewrite H. change (n_ofZ (Zfloor r) : F64) with (f_ofZ (Zfloor r)).
  rewrite f_val_ofZ_exact by lia. cbn [xltb]. destruct (Rlt_dec (IZR (Zfloor r)) r) as [Q|Q].
  - rewrite Rlt_bool_true by auto. symmetry. apply Zceil_imp. rewrite minus_IZR, plus_IZR. lra.
  - rewrite Rlt_bool_false by lra. symmetry. apply Zceil_imp. rewrite minus_IZR. lra.
Qed.

(** rounding a quotient of moderate integers does not move it to another ceiling *)
Lemma quotient_ceil p r : (0 < r)%Z -> (r <= p < 2 ^ 53)%Z -> Zceil (rnd64 (IZR p / IZR r)) = Zceil (IZR p / IZR r).
Proof.
  intros Hr Hp. set (q := (IZR p / IZR r)%R). set (m := Zceil q).
  assert (R0 : (0 < IZR r)%R) by (apply IZR_lt; auto). assert (P0 : (0 < IZR p)%R) by (apply IZR_lt; lia).
  assert (Q0 : (0 < q)%R) by (apply Rdiv_lt_0_compat; auto).
  assert (QR : (q * IZR r = IZR p)%R) by (unfold q; field; lra).
  assert (R1 : (1 <= IZR r)%R) by (apply IZR_le; lia).
  assert (QP : (q <= IZR p)%R) by (rewrite <- QR; rewrite <- (Rmult_1_r q) at 1; apply Rmult_le_compat_l; lra).
  assert (U : (q <= IZR m)%R) by apply Zceil_ub.
  assert (L : (IZR m - 1 < q)%R) by (pose proof (Zceil_lb q); fold m in H; lra).
  assert (M1 : (1 <= m)%Z) by (assert (0 < m)%Z by (apply lt_IZR; lra); lia).
  assert (M2 : (m <= 2 ^ 53)%Z).
  { assert (m - 1 < 2 ^ 53)%Z; [|lia]. apply lt_IZR. rewrite minus_IZR. assert (IZR p < IZR (2 ^ 53))%R by (apply IZR_lt; lia). lra. }
  assert (FM : forall k, (0 <= k <= 2 ^ 53)%Z -> rnd64 (IZR k) = IZR k).
  { intros k Hk. pose proof (rnd_int k ltac:(lia)) as E. unfold f_rnd in E. destruct (Rlt_bool _ _); [injection E; auto|].
    destruct (Rlt_bool _ _); discriminate. }
  assert (UB : (rnd64 q <= IZR m)%R) by (rewrite <- (FM m) by lia; apply rnd64_le; auto).
  assert (LB : (IZR (m - 1) <= rnd64 q)%R) by (rewrite <- (FM (m - 1)%Z) by lia; apply rnd64_le; rewrite minus_IZR; lra).
  apply Zceil_imp. split; auto.
  destruct (Req_dec (rnd64 q) (IZR (m - 1))) as [E|NE]; [exfalso|lra].
  assert (D : (1 <= (q - IZR (m - 1)) * IZR r)%R).
  { rewrite Rmult_minus_distr_r, QR, <- mult_IZR, <- minus_IZR. apply IZR_le.
    assert (0 < p - (m - 1) * r)%Z; [|lia]. apply lt_IZR. rewrite minus_IZR, mult_IZR, <- QR, <- Rmult_minus_distr_r.
    apply Rmult_lt_0_compat; auto. rewrite minus_IZR. lra. }
  assert (Q1 : (1 <= q)%R).
  { apply Rmult_le_reg_r with (IZR r); auto. rewrite QR, Rmult_1_l. apply IZR_le; lia. }
  assert (ERR : (Rabs (rnd64 q - q) <= / 2 * bpow radix2 (-53 + 1) * Rabs q)%R).
  { apply (relative_error_N_FLT radix2 (-1074) 53 ltac:(reflexivity) (fun x => negb (Z.even x)) q).
    rewrite Rabs_pos_eq by lra. apply Rle_trans with 1%R; auto. change 1%R with (bpow radix2 0). apply bpow_le. lia. }
  rewrite E, Rabs_minus_sym, (Rabs_pos_eq q), Rabs_pos_eq in ERR by (rewrite ?minus_IZR; lra).
  assert (B53 : (/ 2 * bpow radix2 (-53 + 1) * IZR (2 ^ 53) = 1)%R).
  { change (2 ^ 53)%Z with (Zpower radix2 53). rewrite IZR_Zpower by lia. change (/ 2)%R with (bpow radix2 (-1)). rewrite <- !bpow_plus. reflexivity. }
  set (u := (/ 2 * bpow radix2 (-53 + 1))%R) in *.
  assert (U0 : (0 < u)%R) by (unfold u; apply Rmult_lt_0_compat; [lra|apply bpow_gt_0]).
  assert (K : ((q - IZR (m - 1)) * IZR r <= u * q * IZR r)%R) by (apply Rmult_le_compat_r; lra).
  rewrite Rmult_assoc, QR in K.
  assert (u * IZR p < u * IZR (2 ^ 53))%R by (apply Rmult_lt_compat_l; auto; apply IZR_lt; lia). lra.
Qed.

Lemma rnd64_int k : (Z.abs k <= 2 ^ 53)%Z -> rnd64 (IZR k) = IZR k.
Proof.
  intros Hk. pose proof (rnd_int k Hk) as E. unfold f_rnd in E. destruct (Rlt_bool _ _); [injection E; auto|].
  destruct (Rlt_bool _ _); discriminate.
Qed.

(** ** arange on integers *)
Lemma arange_int s e r (fs fe fr : F64) : is_int fs s -> is_int fe e -> is_int fr r ->
  (0 < r)%Z -> (r <= e - s < 2 ^ 53)%Z -> (Z.abs s <= 2 ^ 52)%Z -> (Z.abs e <= 2 ^ 52)%Z ->
  exists c, arange fs fe fr = Ok c /\ length c = Z.to_nat (Zceil (IZR (e - s) / IZR r)) /\
  forall i, i < length c -> is_int (get n_nan c i) (s + Z.of_nat i * r).
Proof.
  intros Hs He Hr R0 D Bs Be. unfold arange. set (span := n_sub fe fs). set (value := n_div span fr).
  assert (Is : is_int span (e - s)) by (apply int_sub; auto; lia).
  set (q := (IZR (e - s) / IZR r)%R).
  assert (RR : (0 < IZR r)%R) by (apply IZR_lt; auto).
  assert (QR : (q * IZR r = IZR (e - s))%R) by (unfold q; field; lra).
  assert (Q1 : (1 <= q)%R).
  { apply Rmult_le_reg_r with (IZR r); auto. rewrite QR, Rmult_1_l. apply IZR_le; lia. }
  assert (QP : (q <= IZR (e - s))%R).
  { assert (1 <= IZR r)%R by (apply IZR_le; lia). rewrite <- QR, <- (Rmult_1_r q) at 1. apply Rmult_le_compat_l; lra. }
  assert (QB : (q <= IZR (2 ^ 53))%R) by (apply Rle_trans with (IZR (e - s)); auto; apply IZR_le; lia).
  assert (RB : (1 <= rnd64 q <= IZR (2 ^ 53))%R).
  { split; [rewrite <- (rnd64_int 1) by (compute; discriminate)|rewrite <- (rnd64_int (2 ^ 53)) by lia]; apply rnd64_le; auto. }
  assert (Iv : V value = XFin (rnd64 q)).
  { unfold value. change (n_div span fr) with (f_div span fr). rewrite f_val_div by (rewrite Hr; intros Q; injection Q; lra).
    rewrite Is, Hr. cbn [xdiv]. rewrite Req_bool_false by lra. fold q. unfold f_rnd. rewrite Rlt_bool_true; auto.
    rewrite Rabs_pos_eq by lra. apply Rle_lt_trans with (IZR (2 ^ 53)); [apply RB|].
    change (2 ^ 53)%Z with (Zpower radix2 53). rewrite IZR_Zpower by lia. apply bpow_lt. lia. }
  destruct (finite_val _ _ Iv) as [Fv _].
  assert (NV : n_isnan value || n_isinf value = false) by (destruct value; try discriminate; reflexivity).
  rewrite NV.
  assert (ZV : n_eqb value (n_ofZ 0) = false).
  { rewrite (val_eqb _ F64sem). change (val F64sem) with f_val. rewrite Iv. change (n_ofZ 0 : F64) with (f_ofZ 0).
    rewrite f_val_ofZ_exact by lia. cbn [xeqb]. apply Req_bool_false. lra. }
  rewrite ZV. cbn [andb].
  assert (CE : f_ceil value = Zceil q).
  { rewrite (f_ceil_spec _ _ Iv) by lra. unfold q. apply quotient_ceil; lia. }
  rewrite CE.
  assert (CB : (1 <= Zceil q <= 2 ^ 53)%Z).
  { pose proof (Zceil_ub q). pose proof (Zceil_lb q). split.
    - assert (0 < Zceil q)%Z by (apply lt_IZR; lra). lia.
    - assert (Zceil q - 1 < 2 ^ 53)%Z; [|lia]. apply lt_IZR. rewrite minus_IZR. lra. }
  replace (2 ^ 53 <? Zceil q)%Z with false by (symmetry; apply Z.ltb_ge; lia).
  eexists. split; [reflexivity|].
  assert (CR : ((Zceil q - 1) * r < e - s)%Z).
  { apply lt_IZR. rewrite mult_IZR, minus_IZR, <- QR. apply Rmult_lt_compat_r; auto. pose proof (Zceil_lb q). lra. }
  set (n := Z.to_nat (Zceil q)). assert (Hn : Z.of_nat n = Zceil q) by (unfold n; lia).
  destruct n as [|[|k]] eqn:En; [lia| |].
  - split; [reflexivity|]. intros [|i] Hi; [|simpl in Hi; lia]. replace (s + Z.of_nat 0 * r)%Z with s by lia. exact Hs.
  - assert (KB : forall i, i < S (S k) -> (0 <= Z.of_nat i * r < e - s)%Z).
    { intros i Hi. assert (Z.of_nat i <= Zceil q - 1)%Z by lia. nia. }
    assert (In1 : is_int (n_add fs fr) (s + r)) by (pose proof (KB 1 ltac:(lia)); apply int_add; auto; lia).
    assert (Id : is_int (n_sub (n_add fs fr) fs) (s + r - s)) by (apply int_sub; auto; lia).
    replace (s + r - s)%Z with r in Id by lia.
    split; [simpl; rewrite map_length, seq_length; auto|].
    intros i Hi. cbn [length] in Hi. rewrite map_length, seq_length in Hi.
    destruct i as [|[|i]].
    + replace (s + Z.of_nat 0 * r)%Z with s by lia. exact Hs.
    + replace (s + Z.of_nat 1 * r)%Z with (s + r)%Z by lia. exact In1.
    + match goal with |- is_int (get _ (_ :: _ :: ?l) _) ?z => change (is_int (get n_nan l i) z) end.
      rewrite (get_map (fun i => n_add fs (n_mul (n_ofZ (Z.of_nat i) : F64) (n_sub (n_add fs fr) fs))) 0) by (rewrite seq_length; lia).
      replace (get 0 (seq 2 k) i) with (S (S i)) by (unfold get; rewrite seq_nth by lia; lia).
      pose proof (KB (S (S i)) ltac:(lia)) as B. apply int_add; auto; [|lia].
      assert (Z.of_nat (S (S i)) <= Zceil q)%Z by lia.
      apply int_mul; auto; [apply int_ofZ; lia|lia].
Qed.

(** ** minimum and maximum of integers *)
Lemma list_min_int l lf : Forall2 is_int lf l -> l <> [] -> exists m fm, list_min lf = Ok fm /\ is_int fm m /\ In m l /\ (forall x, In x l -> (m <= x)%Z).
Proof.
  intros F NE. destruct F as [|x a lf l Hx F]; [congruence|]. unfold list_min. clear NE.
  revert x a Hx. induction F as [|y b lf l Hy F IH]; intros x a Hx.
  - exists a, x. split; [reflexivity|]. repeat split; auto; [left; auto|]. intros ? [<-|[]]. lia.
  - cbn [fold_left]. rewrite (int_ltb _ _ _ _ Hy Hx). destruct (Z.ltb_spec b a).
    + destruct (IH y b Hy) as (m & fm & E & I1 & I2 & I3). exists m, fm. split; [exact E|]. split; [exact I1|]. split.
      * right. exact I2.
      * intros u [<-|Hu]; [|auto]. assert (m <= b)%Z by (apply I3; left; auto). lia.
    + destruct (IH x a Hx) as (m & fm & E & I1 & I2 & I3). exists m, fm. split; [exact E|]. split; [exact I1|]. split.
      * destruct I2; [left|right; right]; auto.
      * intros u [<-|[<-|Hu]]; [apply I3; left; auto| |apply I3; right; auto]. assert (m <= a)%Z by (apply I3; left; auto). lia.
Qed.
Lemma list_max_int l lf : Forall2 is_int lf l -> l <> [] -> exists m fm, list_max lf = Ok fm /\ is_int fm m /\ In m l /\ (forall x, In x l -> (x <= m)%Z).
Proof.
  intros F NE. destruct F as [|x a lf l Hx F]; [congruence|]. unfold list_max. clear NE.
  revert x a Hx. induction F as [|y b lf l Hy F IH]; intros x a Hx.
  - exists a, x. split; [reflexivity|]. repeat split; auto; [left; auto|]. intros ? [<-|[]]. lia.
  - cbn [fold_left]. rewrite (int_ltb _ _ _ _ Hx Hy). destruct (Z.ltb_spec a b).
    + destruct (IH y b Hy) as (m & fm & E & I1 & I2 & I3). exists m, fm. split; [exact E|]. split; [exact I1|]. split.
      * right. exact I2.
      * intros u [<-|Hu]; [|auto]. assert (b <= m)%Z by (apply I3; left; auto). lia.
    + destruct (IH x a Hx) as (m & fm & E & I1 & I2 & I3). exists m, fm. split; [exact E|]. split; [exact I1|]. split.
      * destruct I2; [left|right; right]; auto.
      * intros u [<-|[<-|Hu]]; [apply I3; left; auto| |apply I3; right; auto]. assert (a <= m)%Z by (apply I3; left; auto). lia.
Qed.

Lemma coords_int (x : list Z) r fr : x <> [] -> (forall v, In v x -> (Z.abs v <= 2 ^ 50)%Z) -> (0 < r <= 2 ^ 50)%Z -> is_int fr r ->
  exists lo hi c zc, list_min (map n_ofZ x) = Ok lo /\ list_max (map n_ofZ x) = Ok hi /\ arange (n_sub lo fr) (n_add hi fr) fr = Ok c /\
    values c zc /\ covers (map IZR x) (IZR r) zc.
Proof.
  intros NE B Br Hr.
  assert (F : Forall2 is_int (map n_ofZ x) x).
  { clear NE. induction x as [|a x IH]; constructor; [apply int_ofZ; pose proof (B a (or_introl eq_refl)); lia|]. apply IH. intros; apply B; right; auto. }
  destruct (list_min_int x _ F NE) as (lo & flo & E1 & I1 & In1 & L1). destruct (list_max_int x _ F NE) as (hi & fhi & E2 & I2 & In2 & L2).
  pose proof (B _ In1) as B1. pose proof (B _ In2) as B2. pose proof (L1 _ In2) as LH.
  destruct (arange_int (lo - r) (hi + r) r (n_sub flo fr) (n_add fhi fr) fr) as (c & E & Lc & G); auto; try lia.
  - apply int_sub; auto; lia.
  - apply int_add; auto; lia.
  - exists flo, fhi, c, (map (fun i => IZR (lo - r + Z.of_nat i * r)) (seq 0 (length c))).
    split; [exact E1|]. split; [exact E2|]. split; [exact E|]. split.
    + unfold values. rewrite map_map. apply (get_ext XNaN); [rewrite !map_length, seq_length; auto|].
      intros i Hi. rewrite map_length in Hi. rewrite (get_map f_val (n_nan : F64)) by auto.
      rewrite (get_map (fun i => XFin (IZR (lo - r + Z.of_nat i * r))) 0) by (rewrite seq_length; auto).
      unfold get at 2. rewrite seq_nth by auto. apply (G i Hi).
    + set (q := (IZR (hi + r - (lo - r)) / IZR r)%R) in *.
      assert (RR : (0 < IZR r)%R) by (apply IZR_lt; lia).
      assert (QR : (q * IZR r = IZR (hi + r - (lo - r)))%R) by (unfold q; field; lra).
      assert (LR : (IZR lo <= IZR hi)%R) by (apply IZR_le; auto).
      rewrite !minus_IZR, plus_IZR in QR.
      assert (Q2 : (2 <= q)%R) by (apply Rmult_le_reg_r with (IZR r); auto; lra).
      pose proof (Zceil_ub q) as U. pose proof (Zceil_lb q) as Lw.
      assert (C2 : (2 <= Zceil q)%Z) by (apply le_IZR; lra).
      exists (IZR lo), (IZR hi). rewrite map_length, seq_length.
      assert (GG : forall i, i < length c -> get 0%R (map (fun i => IZR (lo - r + Z.of_nat i * r)) (seq 0 (length c))) i = (IZR lo - IZR r + INR i * IZR r)%R).
      { intros i Hi. rewrite (get_map (fun i => IZR (lo - r + Z.of_nat i * r)) 0) by (rewrite seq_length; auto). unfold get. rewrite seq_nth by auto.
        rewrite plus_IZR, minus_IZR, mult_IZR, INR_IZR_INZ. auto. }
      split; [split; [apply in_map; auto|intros v Hv; apply in_map_iff in Hv as (w & <- & Hw); apply IZR_le; auto]|].
      split; [split; [apply in_map; auto|intros v Hv; apply in_map_iff in Hv as (w & <- & Hw); apply IZR_le; auto]|].
      split; [lia|]. split; [exact GG|]. rewrite GG by lia.
      assert (EI : INR (length c - 1) = (IZR (Zceil q) - 1)%R).
      { rewrite INR_IZR_INZ, <- minus_IZR. f_equal. lia. }
      rewrite EI.
      assert (q * IZR r <= IZR (Zceil q) * IZR r)%R by (apply Rmult_le_compat_r; lra).
      assert (IZR (Zceil q) * IZR r < (q + 1) * IZR r)%R by (apply Rmult_lt_compat_r; lra). lra.
Qed.

Lemma meshgrid_product xc yc : product_grid xc yc (meshgrid xc yc).
Proof.
  unfold product_grid, meshgrid. cbn [fst snd]. rewrite repeat_length, map_length. split; auto. split; auto.
  intros i Hi. rewrite get_repeat by auto. rewrite (get_map (fun y => repeat y (length xc)) (n_nan : F64)) by auto. rewrite repeat_length.
  split; auto. split; auto. intros j Hj. rewrite get_repeat by auto. auto.
Qed.

Lemma integer_grid (x y : list Z) (r : Z) xg yg : xg = None \/ yg = None -> x <> [] -> y <> [] ->
  (forall v, In v (x ++ y) -> (Z.abs v <= 2 ^ 50)%Z) -> (0 < r <= 2 ^ 50)%Z ->
  exists g xc yc zx zy, parse_grid_kwargs (map n_ofZ x) (map n_ofZ y) xg yg (Some (n_ofZ r)) = Ok g /\ product_grid xc yc g /\
    values xc zx /\ values yc zy /\ covers (map IZR x) (IZR r) zx /\ covers (map IZR y) (IZR r) zy.
Proof.
  intros Hg Hx Hy B Br. assert (Hr : is_int (n_ofZ r : F64) r) by (apply int_ofZ; lia).
  destruct (coords_int x r _ Hx (fun v H => B v (in_or_app _ _ _ (or_introl H))) Br Hr) as (xl & xh & xc & zx & E1 & E2 & E3 & V1 & C1).
  destruct (coords_int y r _ Hy (fun v H => B v (in_or_app _ _ _ (or_intror H))) Br Hr) as (yl & yh & yc & zy & F1 & F2 & F3 & V2 & C2).
  exists (meshgrid xc yc), xc, yc, zx, zy. split; [|split; [apply meshgrid_product|auto]].
  unfold parse_grid_kwargs. rewrite E1, E2, F1, F2. cbn [bind]. rewrite E3, F3. cbn [bind]. destruct xg, yg; auto. destruct Hg; discriminate.
Qed.

(** ** missing coordinates *)
Lemma ltb_nan_l (x y : F64) : n_isnan x = true -> n_ltb x y = false.
Proof. destruct x; try discriminate; reflexivity. Qed.
Lemma ltb_nan_r (x y : F64) : n_isnan x = true -> n_ltb y x = false.
Proof. destruct x; try discriminate. destruct y as [| [] | |]; reflexivity. Qed.

Lemma fold_nan_kept (f : F64 -> F64 -> bool) : (forall x y, n_isnan x = true -> f x y = false) -> forall l x, n_isnan x = true ->
  fold_left (fun m y => if f m y then y else m) l x = x.
Proof. intros Hf. induction l as [|y l IH]; intros x Hx; cbn [fold_left]; auto. rewrite Hf by auto. apply IH; auto. Qed.
Lemma fold_nan_skipped (f : F64 -> F64 -> bool) : (forall x y, n_isnan y = true -> f x y = false) -> forall l x,
  fold_left (fun m y => if f m y then y else m) l x = fold_left (fun m y => if f m y then y else m) (filter (fun y => negb (n_isnan y)) l) x.
Proof. intros Hf. induction l as [|y l IH]; intros x; cbn [fold_left filter]; auto. destruct (n_isnan y) eqn:E; cbn [negb]; [rewrite Hf by auto|cbn [fold_left]]; apply IH. Qed.

Lemma arange_nan (start stop step : F64) : n_isnan start = true -> arange start stop step = Err ValueError.
Proof.
  intros H. unfold arange.
  assert (E : n_isnan (n_div (n_sub stop start) step) = true).
  { destruct start; try discriminate. destruct stop as [| [] | |], step as [| [] | |]; reflexivity. }
  rewrite E. reflexivity.
Qed.

Lemma nan_first x0 (x y : list F64) xg yg r : xg = None \/ yg = None -> n_isnan x0 = true ->
  parse_grid_kwargs (x0 :: x) y xg yg (Some r) = Err ValueError.
Proof.
  intros Hg H. assert (E : parse_grid_kwargs (x0 :: x) y None None (Some r) = Err ValueError).
  { unfold parse_grid_kwargs, list_min, list_max. cbn [bind].
    rewrite (fold_nan_kept (fun m y => n_ltb y m)) by (auto; intros; apply ltb_nan_r; auto).
    rewrite (fold_nan_kept (fun m y => n_ltb m y)) by (auto; intros; apply ltb_nan_l; auto).
    rewrite arange_nan; [reflexivity|]. destruct x0; try discriminate. destruct r; reflexivity. }
  unfold parse_grid_kwargs in *. destruct xg, yg; auto. destruct Hg; discriminate.
Qed.

Lemma nan_later (x y : list F64) xg yg r : n_isnan (get n_nan x 0) = false -> n_isnan (get n_nan y 0) = false ->
  parse_grid_kwargs x y xg yg r = parse_grid_kwargs (filter (fun v => negb (n_isnan v)) x) (filter (fun v => negb (n_isnan v)) y) xg yg r.
Proof.
  intros Hx Hy. destruct x as [|a x]; [discriminate|]. destruct y as [|b y]; [discriminate|].
  change (n_isnan a = false) in Hx. change (n_isnan b = false) in Hy. cbn [filter]. rewrite Hx, Hy. cbn [negb].
  unfold parse_grid_kwargs, list_min, list_max.
  rewrite (fold_nan_skipped (fun m y => n_ltb y m) (fun x y H => ltb_nan_l y x H) x), (fold_nan_skipped (fun m y => n_ltb m y) (fun x y H => ltb_nan_r y x H) x).
  rewrite (fold_nan_skipped (fun m y => n_ltb y m) (fun x y H => ltb_nan_l y x H) y), (fold_nan_skipped (fun m y => n_ltb m y) (fun x y H => ltb_nan_r y x H) y).
  reflexivity.
Qed.

(** ** coordinates never decrease *)
Lemma fix_multiple x : generic_format radix2 fexp64 x -> exists m, x = (IZR m * bpow radix2 (-1074))%R.
Proof.
  intros H. assert (F : FLT_format radix2 (-1074) 53 x) by (apply FLT_format_generic; [reflexivity|exact H]).
  destruct F as [[m e] E1 E2 E3]. cbn [Fnum Fexp] in E2, E3. exists (m * Zpower radix2 (e + 1074))%Z.
  rewrite E1. unfold F2R. cbn [Fnum Fexp]. rewrite mult_IZR, IZR_Zpower by lia. rewrite Rmult_assoc, <- bpow_plus. do 2 f_equal. lia.
Qed.

Lemma half_round s b : generic_format radix2 fexp64 s -> generic_format radix2 fexp64 b -> (s <= b)%R -> ((b - s) / 2 <= rnd64 (b - s))%R.
Proof.
  intros Fs Fb L. destruct (Req_dec (b - s) 0) as [Z|NZ]; [rewrite Z, rnd64_0; lra|].
  set (d := (b - s)%R) in *. assert (D : (0 < d)%R) by (unfold d in *; lra).
  destruct (fix_multiple s Fs) as (ms & Es). destruct (fix_multiple b Fb) as (mb & Eb).
  assert (DM : (bpow radix2 (-1074) <= d)%R).
  { assert (Ed : d = (IZR (mb - ms) * bpow radix2 (-1074))%R) by (unfold d; rewrite Es, Eb, minus_IZR; ring).
    assert (1 <= mb - ms)%Z.
    { assert (0 < mb - ms)%Z; [|lia]. apply lt_IZR. apply Rmult_lt_reg_r with (bpow radix2 (-1074)); [apply bpow_gt_0|]. rewrite <- Ed. lra. }
    rewrite Ed. rewrite <- (Rmult_1_l (bpow radix2 (-1074))) at 1. apply Rmult_le_compat_r; [apply bpow_ge_0|]. apply IZR_le; auto. }
  destruct (mag radix2 d) as [e He]. specialize (He NZ). rewrite Rabs_pos_eq in He by lra.
  assert (E : (-1074 <= e - 1)%Z).
  { assert (-1074 < e)%Z; [|lia]. apply (lt_bpow radix2). apply Rle_lt_trans with d; [auto|apply He]. }
  apply Rle_trans with (bpow radix2 (e - 1)).
  - replace (bpow radix2 e) with (2 * bpow radix2 (e - 1))%R in He; [lra|].
    change 2%R with (bpow radix2 1). rewrite <- bpow_plus. f_equal. lia.
  - unfold rnd64. apply round_ge_generic; [apply _|apply _| |apply He].
    apply generic_format_bpow. unfold SpecFloat.fexp, SpecFloat.emin. lia.
Qed.

Lemma format_val x r : V x = XFin r -> generic_format radix2 fexp64 r.
Proof. intros H. destruct (finite_val x r H) as [_ <-]. apply generic_format_B2R. Qed.

Definition coord (start step : F64) (i : nat) : F64 :=
  match i with 0 => start | 1 => n_add start step
  | _ => n_add start (n_mul (n_ofZ (Z.of_nat i)) (n_sub (n_add start step) start)) end.

Lemma get_coord (start step : F64) n i : i < n ->
  get n_nan (match n with 0 => [] | 1 => [start]
      | S (S k) => start :: n_add start step :: map (fun i => n_add start (n_mul (n_ofZ (Z.of_nat i)) (n_sub (n_add start step) start))) (seq 2 k) end) i = coord start step i.
Proof.
  intros Hi. destruct n as [|[|k]]; [lia| |].
  - destruct i; [reflexivity|lia].
  - destruct i as [|[|i]]; [reflexivity|reflexivity|].
    match goal with |- get _ (_ :: _ :: ?l) _ = _ => change (get (n_nan : F64) l i = coord start step (S (S i))) end.
    rewrite (get_map (fun i => n_add start (n_mul (n_ofZ (Z.of_nat i) : F64) (n_sub (n_add start step) start))) 0) by (rewrite seq_length; lia).
    unfold get. rewrite seq_nth by lia. reflexivity.
Qed.

Lemma f_rnd_mono a b : xleb a b = true -> xleb (f_rnd a) (f_rnd b) = true.
Proof. apply (rnd_mono _ F64sem). Qed.
Lemma xleb_pinf x : x <> XNaN -> xleb x XPInf = true.
Proof. destruct x; simpl; auto. Qed.
Lemma f_rnd_fin r : (exists q, f_rnd (XFin r) = XFin q /\ q = rnd64 r) \/ f_rnd (XFin r) = XNInf \/ f_rnd (XFin r) = XPInf.
Proof. unfold f_rnd. destruct (Rlt_bool (Rabs _) _); [left; eauto|]. destruct (Rlt_bool r 0); auto. Qed.

Lemma format_double x : generic_format radix2 fexp64 x -> generic_format radix2 fexp64 (2 * x).
Proof.
  intros H. assert (F : FLT_format radix2 (-1074) 53 x) by (apply FLT_format_generic; [reflexivity|exact H]).
  destruct F as [[m e] E1 E2 E3]. cbn [Fnum Fexp] in E2, E3.
  apply (generic_format_FLT radix2 (-1074) 53). exists (Float radix2 m (e + 1)); cbn [Fnum Fexp]; auto; [|lia].
  rewrite E1. unfold F2R. cbn [Fnum Fexp]. rewrite bpow_plus. change (bpow radix2 1) with 2%R. ring.
Qed.

Lemma xadd_mono_fin s a b : xleb a b = true -> xleb (xadd (XFin s) a) (xadd (XFin s) b) = true.
Proof.
  destruct a as [| |a|], b as [| |b|]; cbn; try discriminate; auto. intros H. apply (xleb_fin a b) in H. apply (xleb_fin (s + a) (s + b)). lra.
Qed.

Section Coord.
Variables (start step : F64) (s r : R).
Hypothesis (Vs : V start = XFin s) (Vr : V step = XFin r) (Hr : (0 < r)%R).
Let next := n_add start step.
Let delta := n_sub next start.
Let m (i : nat) := n_mul (n_ofZ (Z.of_nat i)) delta.

Lemma s_rnd : f_rnd (XFin s) = XFin s. Proof. rewrite <- Vs. apply f_rnd_val. Qed.
Lemma next_ge : exists b, V next = b /\ (b = XPInf \/ exists q, b = XFin q /\ (s <= q)%R).
Proof.
  exists (V next). split; auto.
  assert (E : V next = f_rnd (XFin (s + r))) by (unfold next; change (n_add start step) with (f_add start step); rewrite f_val_add, Vs, Vr; auto).
  assert (L : xleb (XFin s) (V next) = true).
  { rewrite E, <- s_rnd. apply f_rnd_mono. apply (xleb_fin s (s + r)). lra. }
  destruct (V next) as [| |q|]; try discriminate; auto. right. exists q. split; auto. apply (xleb_fin s q) in L. auto.
Qed.
Lemma delta_ge : V delta = XPInf \/ exists b d, V next = XFin b /\ V delta = XFin d /\ (s <= b)%R /\ (b - s <= 2 * d)%R /\ (0 <= d)%R.
Proof.
  destruct next_ge as (b & E & H).
  assert (D : V delta = f_rnd (xsub b (XFin s))) by (unfold delta; change (n_sub next start) with (f_sub next start); rewrite f_val_sub, E, Vs; auto).
  destruct H as [->|(q & -> & Hq)].
  - left. rewrite D. reflexivity.
  - cbn [xsub xopp xadd] in D. replace (q + - s)%R with (q - s)%R in D by ring.
    pose proof (half_round s q (format_val _ _ Vs) (format_val _ _ E) Hq) as Hh.
    destruct (f_rnd_fin (q - s)) as [(d & F1 & F2)|[F|F]]; rewrite F in D || rewrite F1 in D.
    + right. exists q, d. repeat split; auto; subst d; lra.
    + exfalso. pose proof (f_rnd_mono (XFin 0) (XFin (q - s))) as M. rewrite F in M. change 0%R with (IZR 0) in M. rewrite (rnd_int 0) in M by lia.
      assert (K : xleb (XFin (IZR 0)) (XFin (q - s)) = true) by (apply (xleb_fin (IZR 0) (q - s)); lra). specialize (M K). discriminate.
    + left. auto.
Qed.

Lemma m_mono i j : 1 <= i <= j -> (Z.of_nat j <= 2 ^ 53)%Z -> xleb (V (m i)) (V (m j)) = true.
Proof.
  intros Hij B. unfold m. change (n_mul ?a ?b) with (f_mul a b). rewrite !f_val_mul. apply f_rnd_mono.
  change (n_ofZ ?k : F64) with (f_ofZ k). rewrite !f_val_ofZ_exact by lia.
  assert (I : (1 <= IZR (Z.of_nat i) <= IZR (Z.of_nat j))%R) by (split; apply IZR_le; lia).
  destruct delta_ge as [->|(b & d & _ & -> & _ & _ & Hd)].
  - cbn [xmul xsgn]. rewrite !Rcompare_Gt by lra. reflexivity.
  - cbn [xmul]. apply (xleb_fin (IZR (Z.of_nat i) * d) (IZR (Z.of_nat j) * d)). apply Rmult_le_compat_r; lra.
Qed.
Lemma m_nonneg j : 1 <= j -> (Z.of_nat j <= 2 ^ 53)%Z -> xleb (XFin 0) (V (m j)) = true.
Proof.
  intros Hj B. change 0%R with (IZR 0). rewrite <- (rnd_int 0) by lia. unfold m. change (n_mul ?a ?b) with (f_mul a b). rewrite !f_val_mul. apply f_rnd_mono.
  change (n_ofZ ?k : F64) with (f_ofZ k). rewrite !f_val_ofZ_exact by lia.
  assert (I : (1 <= IZR (Z.of_nat j))%R) by (apply IZR_le; lia).
  destruct delta_ge as [->|(b & d & _ & -> & _ & _ & Hd)].
  - cbn [xmul xsgn]. rewrite !Rcompare_Gt by lra. reflexivity.
  - cbn [xmul]. apply (xleb_fin (IZR 0) (IZR (Z.of_nat j) * d)). apply Rmult_le_pos; lra.
Qed.

Lemma coord_mono i j : i < j -> (Z.of_nat j <= 2 ^ 53)%Z -> xleb (V (coord start step i)) (V (coord start step j)) = true.
Proof.
  intros Hij B.
  assert (VC : forall k, 2 <= k -> V (coord start step k) = f_rnd (xadd (XFin s) (V (m k)))).
  { intros k Hk. destruct k as [|[|k]]; try lia. unfold coord. fold next. fold delta. change (n_add start ?x) with (f_add start x). rewrite f_val_add, Vs. reflexivity. }
  assert (Z : forall k, 2 <= k -> (Z.of_nat k <= 2 ^ 53)%Z -> xleb (XFin s) (V (coord start step k)) = true).
  { intros k Hk Bk. rewrite VC by auto. rewrite <- s_rnd at 1. apply f_rnd_mono. replace s with (s + 0)%R at 1 by ring.
    apply (xadd_mono_fin s (XFin 0)). apply m_nonneg; auto; lia. }
  assert (O : forall k, 2 <= k -> (Z.of_nat k <= 2 ^ 53)%Z -> xleb (V next) (V (coord start step k)) = true).
  { intros k Hk Bk. apply xleb_trans with (V (coord start step 2)).
    - rewrite VC by auto. rewrite <- (f_rnd_val next). apply f_rnd_mono.
      destruct delta_ge as [D|(b & d & Vn & D & Hb & H2 & H0)].
      + assert (M : V (m 2) = XPInf).
        { unfold m. change (n_mul ?a ?b) with (f_mul a b). rewrite f_val_mul, D. change (n_ofZ ?k : F64) with (f_ofZ k). rewrite f_val_ofZ_exact by lia.
          cbn [xmul xsgn]. rewrite !Rcompare_Gt by (simpl; lra). reflexivity. }
        rewrite M. cbn [xadd]. apply xleb_pinf. destruct next_ge as (b & -> & [->|(q & -> & _)]); discriminate.
      + rewrite Vn.
        assert (M : V (m 2) = f_rnd (XFin (2 * d))).
        { unfold m. change (n_mul ?a ?b) with (f_mul a b). rewrite f_val_mul, D. change (n_ofZ ?k : F64) with (f_ofZ k). rewrite f_val_ofZ_exact by lia. reflexivity. }
        assert (F2 : rnd64 (2 * d) = (2 * d)%R) by (apply round_generic; [apply _|apply format_double, (format_val _ _ D)]).
        rewrite M. unfold f_rnd. rewrite F2. destruct (Rlt_bool (Rabs (2 * d)) _).
        * cbn [xadd]. apply (xleb_fin b (s + 2 * d)). lra.
        * rewrite Rlt_bool_false by lra. reflexivity.
    - rewrite !VC by auto. apply f_rnd_mono, xadd_mono_fin, m_mono; auto. }
  destruct i as [|[|i]].
  - change (coord start step 0) with start. rewrite Vs. destruct j as [|[|j]]; [lia| |apply Z; auto; lia].
    change (coord start step 1) with next. destruct next_ge as (b & -> & [->|(q & -> & Hq)]); [reflexivity|apply (xleb_fin s q); auto].
  - change (coord start step 1) with next. apply O; auto; lia.
  - rewrite !VC by lia. apply f_rnd_mono, xadd_mono_fin, m_mono; auto; lia.
Qed.
End Coord.

Lemma arange_shape (start stop step : F64) c : arange start stop step = Ok c ->
  (Z.of_nat (length c) <= 2 ^ 53)%Z /\ forall i, i < length c -> get n_nan c i = coord start step i.
Proof.
  unfold arange. destruct (_ || _); [discriminate|]. match goal with |- context [(2 ^ 53 <? ?l)%Z] => set (len := l) end. destruct (Z.ltb_spec (2 ^ 53) len) as [|Hl]; [discriminate|].
  intros E. injection E as E. set (n := Z.to_nat len) in E.
  assert (LL : length c = n).
  { rewrite <- E. destruct n as [|[|k]]; auto. cbn [length]. rewrite map_length, seq_length. auto. }
  rewrite LL. split; [unfold n; lia|]. intros i Hi. rewrite <- E. apply get_coord. auto.
Qed.

Lemma arange_never_decreases (start stop step : F64) c s r : V start = XFin s -> V step = XFin r -> (0 < r)%R -> arange start stop step = Ok c ->
  (c <> [] -> get n_nan c 0 = start) /\ forall i j, i < j -> j < length c -> n_leb (get n_nan c i) (get n_nan c j) = true.
Proof.
  intros Hs Hr R0 E. destruct (arange_shape _ _ _ _ E) as [L G]. split.
  - intros NE. apply G. destruct c; [congruence|simpl; lia].
  - intros i j Hij Hj. rewrite !G by lia. rewrite (val_leb _ F64sem). apply (coord_mono start step s r); auto. lia.
Qed.

Lemma grid_never_decreases (x y : list F64) xg yg r g lo hi lo' hi' s s' rr :
  xg = None \/ yg = None -> parse_grid_kwargs x y xg yg (Some r) = Ok g ->
  list_min x = Ok lo -> list_max x = Ok hi -> list_min y = Ok lo' -> list_max y = Ok hi' ->
  f_val (n_sub lo r) = XFin s -> f_val (n_sub lo' r) = XFin s' -> f_val r = XFin rr -> (0 < rr)%R ->
  exists xc yc, product_grid xc yc g /\
    (xc <> [] -> get n_nan xc 0 = n_sub lo r) /\ (yc <> [] -> get n_nan yc 0 = n_sub lo' r) /\
    (forall i j, i < j -> j < length xc -> n_leb (get n_nan xc i) (get n_nan xc j) = true) /\
    (forall i j, i < j -> j < length yc -> n_leb (get n_nan yc i) (get n_nan yc j) = true).
Proof.
  intros Hg E E1 E2 E3 E4 V1 V2 Vr R0.
  assert (K : (do xc <- arange (n_sub lo r) (n_add hi r) r; do yc <- arange (n_sub lo' r) (n_add hi' r) r; Ok (meshgrid xc yc)) = Ok g).
  { rewrite <- E. unfold parse_grid_kwargs. rewrite E1, E2, E3, E4. cbn [bind]. destruct xg, yg; auto. destruct Hg; discriminate. }
  destruct (arange (n_sub lo r) (n_add hi r) r) as [xc|] eqn:A1; [|discriminate]. cbn [bind] in K.
  destruct (arange (n_sub lo' r) (n_add hi' r) r) as [yc|] eqn:A2; [|discriminate]. cbn [bind] in K. injection K as <-.
  destruct (arange_never_decreases _ _ _ _ _ _ V1 Vr R0 A1) as [F1 M1]. destruct (arange_never_decreases _ _ _ _ _ _ V2 Vr R0 A2) as [F2 M2].
  exists xc, yc. split; [apply meshgrid_product|auto].
Qed.

(** longitudes 10 and 11 with resolution 0.1 *)
Lemma grid_ends_early : exists (x : list F64) (r : F64) xc yc hi,
  parse_grid_kwargs x x None None (Some r) = Ok (meshgrid xc yc) /\ n_ltb (n_ofZ 0) r = true /\ In hi x /\
  (forall c, In c xc -> n_ltb c hi = true) /\ n_eqb (n_sub (get n_nan xc 1) (get n_nan xc 0)) r = false.
Proof.
  set (r := f_div (f_ofZ 1) (f_ofZ 10)). set (lo := f_ofZ 10). set (hi := f_ofZ 11).
  destruct (arange (n_sub lo r) (n_add hi r) r) as [c|] eqn:E.
  - exists [lo; hi], r, c, c, hi.
    assert (C1 : n_ltb hi lo = false) by (vm_compute; reflexivity).
    assert (C2 : n_ltb lo hi = true) by (vm_compute; reflexivity).
    assert (L1 : list_min [lo; hi] = Ok lo) by (unfold list_min; cbn [fold_left]; rewrite C1; reflexivity).
    assert (L2 : list_max [lo; hi] = Ok hi) by (unfold list_max; cbn [fold_left]; rewrite C2; reflexivity).
    assert (B : match arange (n_sub lo r) (n_add hi r) r with
                | Ok c => forallb (fun x => n_ltb x hi) c && negb (n_eqb (n_sub (get n_nan c 1) (get n_nan c 0)) r) | Err _ => false end = true) by (vm_compute; reflexivity).
    rewrite E in B. apply andb_true_iff in B as [B1 B2].
    split; [|split; [vm_compute; reflexivity|split; [right; left; reflexivity|split]]].
    + unfold parse_grid_kwargs. rewrite L1, L2. cbn [bind]. rewrite E. reflexivity.
    + apply forallb_forall. exact B1.
    + apply negb_true_iff. exact B2.
  - exfalso. assert (B : match arange (n_sub lo r) (n_add hi r) r with Ok _ => true | Err _ => false end = true) by (vm_compute; reflexivity).
    rewrite E in B. discriminate.
Qed.

Lemma no_stations (x y : list F64) xg yg r : xg = None \/ yg = None -> x = [] \/ f_val r = XFin 0%R -> parse_grid_kwargs x y xg yg (Some r) = Err ValueError.
Proof.
  intros G H. assert (E : parse_grid_kwargs x y xg yg (Some r) = parse_grid_kwargs x y None None (Some r)) by (destruct G; subst; [reflexivity|destruct xg; reflexivity]).
  rewrite E. unfold parse_grid_kwargs. destruct x as [|a x]; [reflexivity|]. destruct H as [H|H]; [discriminate|]. cbn [list_min list_max bind]. unfold arange. cbv zeta.
  match goal with |- context [n_div ?s r] => set (span := s); assert (D : n_isnan (n_div span r) || n_isinf (n_div span r) = true) end.
  { pose proof (val_div0 _ F64sem span r H) as V. change (val F64sem) with f_val in V. rewrite (val_isnan _ F64sem), (val_isinf _ F64sem). change (val F64sem) with f_val. 
    destruct V as (V1 & V2). assert (K : f_val span = XFin 0%R \/ f_val span <> XFin 0%R) by (destruct (f_val span) as [| |q|]; [right|right|destruct (Req_EM_T q 0) as [->|]; [left; reflexivity|right; congruence]|right]; discriminate).
    destruct (xisnan (f_val span)) eqn:N; [rewrite V1 by auto; reflexivity|]. destruct K as [K|K]; [rewrite V1 by auto; reflexivity|]. rewrite (V2 eq_refl K). apply orb_true_r. }
  rewrite D. reflexivity.
Qed.
