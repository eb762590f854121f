(** * Rounding errors of generated grids (C106) *)
From Coq Require Import List ZArith Bool Lia Arith Reals Lra.
From Flocq Require Import Core IEEE754.BinarySingleNaN Relative.
From Verif Require Import Base Num NumF64 NumList Libm Ulp64 HaversineFloat_spec HaversineFloat_proofs FloatErr_spec FloatErr_proofs Grid_spec Grid64_model Grid64_spec Grid64_proofs Grid64Err_spec.
Import ListNotations.
Local Open Scope R_scope.
Local Arguments bpow : simpl never.

Lemma rnd_within x M : bpow radix2 (-900) <= M -> Rabs x <= M -> Rabs (rnd64 x - x) <= u64 * M.
Proof.
  intros HM Hx. pose proof u64_pos as UP. destruct (Rle_dec (bpow radix2 (-1022)) (Rabs x)) as [H|H].
  - destruct (rnd64_rel x H) as (d & D & ->). replace (x * (1 + d) - x) with (d * x) by ring. rewrite Rabs_mult. pose proof (Rabs_pos d). pose proof (Rabs_pos x). apply Rmult_le_compat; auto.
  - eapply Rle_trans; [apply (rnd64_err x (-1074)); [lia|]|].
    + apply Rlt_le_trans with (bpow radix2 (-1022)); [lra|]. apply bpow_le. lia.
    + apply Rle_trans with (u64 * bpow radix2 (-900)).
      * unfold u64. rewrite <- bpow_plus. apply Rle_trans with (bpow radix2 (-1074)); [pose proof (bpow_gt_0 radix2 (-1074)); lra|apply bpow_le; lia].
      * apply Rmult_le_compat_l; lra.
Qed.

Lemma u53 : u64 * 2 ^ 53 = 1.
Proof. rewrite u64_val. replace (2 ^ 53) with (IZR (2 ^ 53)) by (rewrite pow_IZR; reflexivity). apply Rinv_l. apply IZR_neq. lia. Qed.

Lemma list_min_num l lf : are_nums lf l -> l <> [] -> exists m fm, list_min lf = Ok fm /\ is_num fm m /\ least l m.
Proof.
  intros F NE. destruct F as [|x a lf l Hx F]; [congruence|]. unfold list_min. clear NE.
  revert x a Hx. induction F as [|y b lf l Hy F IH]; intros x a Hx.
  - exists a, x. split; [reflexivity|]. split; auto. split; [left; auto|]. intros ? [<-|[]]. lra.
  - cbn [fold_left]. assert (C : n_ltb y x = Rlt_bool b a) by (rewrite (val_ltb _ F64sem); change (val F64sem) with f_val; rewrite Hy, Hx; reflexivity).
    rewrite C. destruct (Rlt_bool_spec b a).
    + destruct (IH y b Hy) as (m & fm & E & I1 & I2 & I3). exists m, fm. split; [exact E|]. split; [exact I1|]. split; [right; exact I2|].
      intros u [<-|Hu]; [|auto]. assert (m <= b) by (apply I3; left; auto). lra.
    + destruct (IH x a Hx) as (m & fm & E & I1 & I2 & I3). exists m, fm. split; [exact E|]. split; [exact I1|]. split.
      * destruct I2; [left|right; right]; auto.
      * intros u [<-|[<-|Hu]]; [apply I3; left; auto| |apply I3; right; auto]. assert (m <= a) by (apply I3; left; auto). lra.
Qed.
Lemma list_max_num l lf : are_nums lf l -> l <> [] -> exists m fm, list_max lf = Ok fm /\ is_num fm m /\ greatest l m.
Proof.
  intros F NE. destruct F as [|x a lf l Hx F]; [congruence|]. unfold list_max. clear NE.
  revert x a Hx. induction F as [|y b lf l Hy F IH]; intros x a Hx.
  - exists a, x. split; [reflexivity|]. split; auto. split; [left; auto|]. intros ? [<-|[]]. lra.
  - cbn [fold_left]. assert (C : n_ltb x y = Rlt_bool a b) by (rewrite (val_ltb _ F64sem); change (val F64sem) with f_val; rewrite Hy, Hx; reflexivity).
    rewrite C. destruct (Rlt_bool_spec a b).
    + destruct (IH y b Hy) as (m & fm & E & I1 & I2 & I3). exists m, fm. split; [exact E|]. split; [exact I1|]. split; [right; exact I2|].
      intros u [<-|Hu]; [|auto]. assert (b <= m) by (apply I3; left; auto). lra.
    + destruct (IH x a Hx) as (m & fm & E & I1 & I2 & I3). exists m, fm. split; [exact E|]. split; [exact I1|]. split.
      * destruct I2; [left|right; right]; auto.
      * intros u [<-|[<-|Hu]]; [apply I3; left; auto| |apply I3; right; auto]. assert (a <= m) by (apply I3; left; auto). lra.
Qed.

Section Axis.
Variables (lo hi r M : R) (flo fhi fr : F64).
Hypothesis Hlo : is_num flo lo.
Hypothesis Hhi : is_num fhi hi.
Hypothesis Hr : is_num fr r.
Hypothesis LH : lo <= hi.
Hypothesis R0 : 0 < r.
Hypothesis BL : Rabs lo + r <= M.
Hypothesis BH : Rabs hi + r <= M.
Hypothesis MR : M <= 2 ^ 30 * r.
Hypothesis M1 : bpow radix2 (-900) <= M.
Hypothesis M2 : M <= bpow radix2 900.
Local Notation e := (u64 * M).

Lemma M_big : 8 * M <= big.
Proof using M2. unfold big. apply Rle_trans with (8 * bpow radix2 900); [lra|]. change 8 with (bpow radix2 3). rewrite <- bpow_plus. apply bpow_le. lia. Qed.
Lemma e_small : e * 2 ^ 23 <= r.
Proof using MR R0.
  pose proof u64_pos. pose proof u53. replace r with ((u64 * 2 ^ 53) * r) by (rewrite u53; ring). replace (u64 * 2 ^ 53 * r) with (u64 * (2 ^ 30 * r) * 2 ^ 23) by ring.
  apply Rmult_le_compat_r; [lra|]. apply Rmult_le_compat_l; lra.
Qed.
Lemma e_pos : 0 < e.
Proof using M1. apply Rmult_lt_0_compat; [apply u64_pos|]. pose proof (bpow_gt_0 radix2 (-900)). lra. Qed.
Lemma rM : r <= M.
Proof using BL. pose proof (Rabs_pos lo). lra. Qed.
Lemma eM : e <= M / 2 ^ 53.
Proof using. right. unfold Rdiv. rewrite Rmult_comm. f_equal. pose proof u53. apply (Rmult_eq_reg_r (2 ^ 53)); [rewrite H, Rinv_l; lra|lra]. Qed.

(** the rounded operations used below *)
Lemma op k x : 1 <= k <= 8 -> Rabs x <= k * M -> Rabs x <= big /\ Rabs (rnd64 x - x) <= k * e.
Proof using M1 M2.
  intros Hk Hx. pose proof M_big. pose proof (bpow_gt_0 radix2 (-900)). split; [nra|].
  replace (k * (u64 * M)) with (u64 * (k * M)) by ring. apply rnd_within; auto. nra.
Qed.

Lemma axis_numbers : exists s t nx d sp va,
  is_num (n_sub flo fr) s /\ is_num (n_add fhi fr) t /\ is_num (n_add (n_sub flo fr) fr) nx /\ is_num (n_sub (n_add (n_sub flo fr) fr) (n_sub flo fr)) d /\
  is_num (n_sub (n_add fhi fr) (n_sub flo fr)) sp /\ is_num (n_div (n_sub (n_add fhi fr) (n_sub flo fr)) fr) va /\
  Rabs (s - (lo - r)) <= e /\ Rabs (nx - lo) <= 3 * e /\ Rabs (d - r) <= 3 * e /\
  Rabs (va * r - (hi - lo + 2 * r)) <= 7 * e.
Proof using Hlo Hhi Hr LH R0 BL BH MR M1 M2.
  pose proof e_pos as EP. pose proof e_small as ES. pose proof rM as RM. pose proof eM as EM. pose proof u64_pos as UP. pose proof u64_small as US.
  assert (M0 : 0 < M) by lra. assert (E1 : 1000 * e <= M) by (apply Rle_trans with (1000 * (M / 2 ^ 53)); [lra|]; unfold Rdiv; assert (1000 * / 2 ^ 53 <= 1) by (apply Rmult_le_reg_r with (2 ^ 53); [lra|]; rewrite Rmult_assoc, Rinv_l; lra); nra).
  pose proof (Rabs_le_inv _ _ (Rle_refl (Rabs lo))) as AL. pose proof (Rabs_le_inv _ _ (Rle_refl (Rabs hi))) as AH. pose proof (Rabs_pos lo). pose proof (Rabs_pos hi).
  destruct (op 1 (lo - r) ltac:(lra) ltac:(apply Rabs_le; lra)) as [B1 D1]. pose proof (is_sub _ _ _ _ Hlo Hr B1) as N1. set (s := rnd64 (lo - r)) in *. apply Rabs_le_inv in D1.
  destruct (op 1 (hi + r) ltac:(lra) ltac:(apply Rabs_le; lra)) as [B2 D2]. pose proof (is_add _ _ _ _ Hhi Hr B2) as N2. set (t := rnd64 (hi + r)) in *. apply Rabs_le_inv in D2.
  destruct (op 2 (s + r) ltac:(lra) ltac:(apply Rabs_le; lra)) as [B3 D3]. pose proof (is_add _ _ _ _ N1 Hr B3) as N3. set (nx := rnd64 (s + r)) in *. apply Rabs_le_inv in D3.
  assert (D3' : Rabs (rnd64 (s + r) - (s + r)) <= u64 * (M + e)).
  { apply rnd_within; [lra|apply Rabs_le; lra]. }
  apply Rabs_le_inv in D3'. fold nx in D3'. assert (UE : u64 * e <= e / 1024) by nra.
  assert (D4' : Rabs (rnd64 (nx - s) - (nx - s)) <= u64 * (M + 4 * e)) by (apply rnd_within; [lra|apply Rabs_le; lra]).
  destruct (op 2 (nx - s) ltac:(lra) ltac:(apply Rabs_le; lra)) as [B4 _]. pose proof (is_sub _ _ _ _ N3 N1 B4) as N4. set (d := rnd64 (nx - s)) in *. apply Rabs_le_inv in D4'.
  assert (D5' : Rabs (rnd64 (t - s) - (t - s)) <= u64 * (2 * M + 2 * e)) by (apply rnd_within; [lra|apply Rabs_le; lra]).
  destruct (op 3 (t - s) ltac:(lra) ltac:(apply Rabs_le; lra)) as [B5 _]. pose proof (is_sub _ _ _ _ N2 N1 B5) as N5. set (sp := rnd64 (t - s)) in *. apply Rabs_le_inv in D5'.
  assert (SP : r <= sp <= 3 * M) by lra.
  assert (Q1 : 1 <= sp / r) by (apply Rmult_le_reg_r with r; auto; unfold Rdiv; rewrite Rmult_assoc, Rinv_l by lra; lra).
  assert (Q2 : sp / r <= 2 ^ 32) by (apply Rmult_le_reg_r with r; auto; unfold Rdiv; rewrite Rmult_assoc, Rinv_l by lra; lra).
  assert (B6 : Rabs (sp / r) <= big).
  { rewrite Rabs_pos_eq by lra. apply Rle_trans with (2 ^ 32); auto. unfold big. replace (2 ^ 32) with (bpow radix2 32) by (unfold bpow; rewrite pow_IZR; f_equal). apply bpow_le. lia. }
  pose proof (is_div _ _ _ _ N5 Hr ltac:(lra) B6) as N6.
  assert (D6 : Rabs (rnd64 (sp / r) - sp / r) <= u64 * (sp / r)).
  { apply rnd_within; [|rewrite Rabs_pos_eq; lra]. apply Rle_trans with 1; auto. change 1 with (bpow radix2 0). apply bpow_le. lia. }
  set (va := rnd64 (sp / r)) in *. apply Rabs_le_inv in D6.
  assert (VR : va * r - sp = (va - sp / r) * r) by (field; lra).
  assert (D6' : Rabs (va * r - sp) <= u64 * sp).
  { rewrite VR, Rabs_mult, (Rabs_pos_eq r) by lra. replace (u64 * sp) with (u64 * (sp / r) * r) by (field; lra). apply Rmult_le_compat_r; [lra|]. apply Rabs_le; lra. }
  apply Rabs_le_inv in D6'. assert (US2 : u64 * sp <= u64 * (2 * M + 5 * e)) by (apply Rmult_le_compat_l; lra).
  exists s, t, nx, d, sp, va. do 6 (split; [assumption|]).
  split; [apply Rabs_le; lra|]. split; [apply Rabs_le; lra|]. split; apply Rabs_le; lra.
Qed.

Lemma axis_arange : exists c zc, arange (n_sub flo fr) (n_add fhi fr) fr = Ok c /\ values c zc /\ (2 <= length zc)%nat /\
  (forall i, (i < length zc)%nat -> Rabs (get 0 zc i - (lo - r + INR i * r)) <= (3 * INR i + 7) * e) /\
  hi - (3 * INR (length zc) + 14) * e <= get 0 zc (length zc - 1) < hi + r + (3 * INR (length zc) + 14) * e.
Proof using Hlo Hhi Hr LH R0 BL BH MR M1 M2.
  pose proof e_pos as EP. pose proof e_small as ES. pose proof rM as RM. pose proof eM as EM. pose proof u64_pos as UP. pose proof u64_small as US.
  assert (M0 : 0 < M) by lra. assert (E1 : 1000 * e <= M) by (apply Rle_trans with (1000 * (M / 2 ^ 53)); [lra|]; unfold Rdiv; assert (1000 * / 2 ^ 53 <= 1) by (apply Rmult_le_reg_r with (2 ^ 53); [lra|]; rewrite Rmult_assoc, Rinv_l; lra); nra).
  destruct axis_numbers as (s & t & nx & d & sp & va & N1 & N2 & N3 & N4 & N5 & N6 & D1 & D3 & D4 & D6).
  apply Rabs_le_inv in D1, D3, D4, D6.
  pose proof (Rabs_le_inv _ _ (Rle_refl (Rabs lo))) as AL. pose proof (Rabs_le_inv _ _ (Rle_refl (Rabs hi))) as AH.
  set (start := n_sub flo fr) in *. set (stop := n_add fhi fr) in *. set (value := n_div (n_sub stop start) fr) in *.
  assert (V1 : 1 < va) by (apply Rmult_lt_reg_r with r; auto; lra).
  assert (V2 : va <= 2 ^ 32) by (apply Rmult_le_reg_r with r; auto; lra).
  assert (P53 : IZR (2 ^ 53) = 2 ^ 53) by (rewrite pow_IZR; reflexivity).
  assert (CE : f_ceil value = Zceil va) by (apply f_ceil_spec; [exact N6|rewrite P53; lra]).
  assert (AR : arange start stop fr = Ok (match Z.to_nat (Zceil va) with O => [] | Datatypes.S O => [start]
      | Datatypes.S (Datatypes.S k) => start :: n_add start fr :: map (fun i => n_add start (n_mul (n_ofZ (Z.of_nat i)) (n_sub (n_add start fr) start))) (seq 2 k) end)).
  { unfold arange. fold value. destruct (finite_val _ _ N6) as [Fv _].
    assert (NV : n_isnan value || n_isinf value = false) by (destruct value; try discriminate; reflexivity). rewrite NV.
    assert (ZV : n_eqb value (n_ofZ 0) = false).
    { rewrite (val_eqb _ F64sem). change (val F64sem) with f_val. rewrite N6. change (n_ofZ 0 : F64) with (f_ofZ 0). rewrite f_val_ofZ_exact by lia. cbn [xeqb]. apply Req_bool_false. lra. }
    rewrite ZV. cbn [andb]. rewrite CE.
    assert (CB : (Zceil va <= 2 ^ 53)%Z) by (apply Zceil_glb; rewrite P53; lra).
    replace (2 ^ 53 <? Zceil va)%Z with false by (symmetry; apply Z.ltb_ge; lia). reflexivity. }
  destruct (arange_shape _ _ _ _ AR) as [_ G]. pose proof (Zceil_ub va) as U. pose proof (Zceil_lb va) as Lw.
  set (n := Z.to_nat (Zceil va)) in *.
  assert (C1 : (1 < Zceil va)%Z) by (apply lt_IZR; lra).
  assert (Hn : IZR (Zceil va) = INR n) by (rewrite INR_IZR_INZ; f_equal; unfold n; lia).
  set (c := match n with O => [] | Datatypes.S O => [start]
      | Datatypes.S (Datatypes.S k) => start :: n_add start fr :: map (fun i => n_add start (n_mul (n_ofZ (Z.of_nat i)) (n_sub (n_add start fr) start))) (seq 2 k) end) in *.
  assert (LC : List.length c = n) by (unfold c; destruct n as [|[|k]]; auto; cbn [List.length]; rewrite map_length, seq_length; auto).
  rewrite LC in G.
  assert (K : forall i, (i < n)%nat -> exists z, is_num (get n_nan c i) z /\ Rabs (z - (lo - r + INR i * r)) <= (3 * INR i + 7) * e).
  { intros i Hi. rewrite (G i Hi). unfold coord. destruct i as [|[|i]].
    - exists s. split; auto. simpl INR. apply Rabs_le; lra.
    - exists nx. split; auto. simpl INR. apply Rabs_le; lra.
    - set (j := Datatypes.S (Datatypes.S i)) in *. pose proof (pos_INR j) as J0.
      assert (JN : INR j + 1 <= INR n) by (rewrite <- S_INR; apply le_INR; lia).
      assert (JV : INR j < va) by lra. assert (JR : INR j * r <= va * r) by (apply Rmult_le_compat_r; lra).
      assert (JE : INR j * e <= M / 100).
      { apply Rle_trans with (2 ^ 32 * (M / 2 ^ 53)); [apply Rmult_le_compat; lra|]. unfold Rdiv. assert (2 ^ 32 * / 2 ^ 53 <= / 100) by (apply Rmult_le_reg_r with (2 ^ 53 * 100); [lra|]; field_simplify; lra). nra. }
      assert (JD : INR j * d = INR j * r + INR j * (d - r)) by ring.
      assert (JX : Rabs (INR j * (d - r)) <= 3 * (INR j * e)).
      { rewrite Rabs_mult, (Rabs_pos_eq (INR j)) by auto. replace (3 * (INR j * e)) with (INR j * (3 * e)) by ring. apply Rmult_le_compat_l; auto. apply Rabs_le; lra. }
      apply Rabs_le_inv in JX. assert (JR0 : 0 <= INR j * r) by (apply Rmult_le_pos; lra).
      assert (NJ : is_num (n_ofZ (Z.of_nat j)) (INR j)).
      { rewrite INR_IZR_INZ. apply num_ofZ. rewrite Z.abs_eq by lia. apply le_IZR. rewrite <- INR_IZR_INZ, P53. lra. }
      assert (DM : Rabs (rnd64 (INR j * d) - INR j * d) <= u64 * (2.1 * M)) by (apply rnd_within; [lra|apply Rabs_le; lra]).
      destruct (op 3 (INR j * d) ltac:(lra) ltac:(apply Rabs_le; lra)) as [BM _]. pose proof (is_mul _ _ _ _ NJ N4 BM) as NM. set (m := rnd64 (INR j * d)) in *. apply Rabs_le_inv in DM.
      destruct (op 3.3 (s + m) ltac:(lra) ltac:(apply Rabs_le; lra)) as [BA DA]. pose proof (is_add _ _ _ _ N1 NM BA) as NA. set (z := rnd64 (s + m)) in *. apply Rabs_le_inv in DA.
      exists z. split; [exact NA|]. apply Rabs_le. lra. }
  assert (X : exists zc, values c zc /\ List.length zc = n /\ forall i, (i < n)%nat -> Rabs (get 0 zc i - (lo - r + INR i * r)) <= (3 * INR i + 7) * e).
  { exists (map (fun x : F64 => match f_val x with XFin z => z | _ => 0 end) c). split; [|split].
    - unfold values. rewrite map_map. apply map_ext_in. intros x Hx. destruct (In_nth _ _ (n_nan : F64) Hx) as (i & Hi & Ei). rewrite LC in Hi.
      destruct (K i Hi) as (z & Nz & _). unfold get in Nz. rewrite Ei in Nz. rewrite Nz. reflexivity.
    - rewrite map_length. auto.
    - intros i Hi. rewrite (get_map _ (n_nan : F64)) by lia. destruct (K i Hi) as (z & Nz & Bz). rewrite Nz. exact Bz. }
  destruct X as (zc & VZ & LZ & BZ). exists c, zc. split; [exact AR|]. split; auto. rewrite LZ.
  assert (N2' : (2 <= n)%nat) by (unfold n; lia). split; auto. split; auto.
  specialize (BZ (n - 1)%nat ltac:(lia)). rewrite minus_INR in BZ by lia. simpl (INR 1) in BZ. apply Rabs_le_inv in BZ.
  assert (W1 : va * r <= INR n * r) by (apply Rmult_le_compat_r; lra). assert (W2 : INR n * r < (va + 1) * r) by (apply Rmult_lt_compat_r; lra).
  set (zz := get 0 zc (n - 1)) in *. set (nr := INR n * r) in *. replace ((INR n - 1) * r) with (nr - r) in BZ by (unfold nr; ring).
  replace ((3 * (INR n - 1) + 7) * e) with ((3 * INR n) * e + 4 * e) in BZ by ring. replace ((3 * INR n + 14) * e) with ((3 * INR n) * e + 14 * e) by ring.
  set (ne := 3 * INR n * e) in *. split; lra.
Qed.
End Axis.

Lemma nearly_covered_axis (x : list F64) (xs : list R) fr r M : are_nums x xs -> xs <> [] -> is_num fr r -> 0 < r ->
  (forall v, In v xs -> Rabs v + r <= M) -> M <= 2 ^ 30 * r -> bpow radix2 (-900) <= M <= bpow radix2 900 ->
  exists lo hi c zc, list_min x = Ok lo /\ list_max x = Ok hi /\ arange (n_sub lo fr) (n_add hi fr) fr = Ok c /\ values c zc /\ nearly_covers xs r (u64 * M) zc.
Proof.
  intros F NE Hr R0 B MR [M1 M2]. destruct (list_min_num xs x F NE) as (lo & flo & E1 & I1 & L1). destruct (list_max_num xs x F NE) as (hi & fhi & E2 & I2 & L2).
  assert (LH : lo <= hi) by (apply L1, L2).
  destruct (axis_arange lo hi r M flo fhi fr I1 I2 Hr LH R0 (B _ (proj1 L1)) (B _ (proj1 L2)) MR M1 M2) as (c & zc & AR & VZ & X).
  exists flo, fhi, c, zc. do 4 (split; [assumption|]). exists lo, hi. auto.
Qed.

Lemma float_grid (x y : list F64) (xs ys : list R) fr r M xg yg : xg = None \/ yg = None -> are_nums x xs -> are_nums y ys -> xs <> [] -> ys <> [] -> is_num fr r -> 0 < r ->
  (forall v, In v (xs ++ ys) -> Rabs v + r <= M) -> M <= 2 ^ 30 * r -> bpow radix2 (-900) <= M <= bpow radix2 900 ->
  exists g xc yc zx zy, parse_grid_kwargs x y xg yg (Some fr) = Ok g /\ product_grid xc yc g /\
    values xc zx /\ values yc zy /\ nearly_covers xs r (u64 * M) zx /\ nearly_covers ys r (u64 * M) zy.
Proof.
  intros Hg Fx Fy Nx Ny Hr R0 B MR MB.
  destruct (nearly_covered_axis x xs fr r M Fx Nx Hr R0 (fun v H => B v (in_or_app _ _ _ (or_introl H))) MR MB) as (xl & xh & xc & zx & E1 & E2 & E3 & V1 & C1).
  destruct (nearly_covered_axis y ys fr r M Fy Ny Hr R0 (fun v H => B v (in_or_app _ _ _ (or_intror H))) MR MB) as (yl & yh & yc & zy & F1 & F2 & F3 & V2 & C2).
  exists (meshgrid xc yc), xc, yc, zx, zy. split; [|split; [apply meshgrid_product|auto]].
  unfold parse_grid_kwargs. rewrite E1, E2, F1, F2. cbn [bind]. rewrite E3, F3. cbn [bind]. destruct xg, yg; auto. destruct Hg; discriminate.
Qed.

Lemma covers_degrees l r c : / 1000 <= r <= 100 -> (forall v, In v l -> Rabs v <= 360) -> nearly_covers l r (u64 * 460) c ->
  exists lo hi, least l lo /\ greatest l hi /\ (2 <= List.length c)%nat /\
  (forall i, (i < List.length c)%nat -> Rabs (get 0 c i - (lo - r + INR i * r)) <= / 10 ^ 6) /\
  hi - / 10 ^ 6 <= get 0 c (List.length c - 1) < hi + r + / 10 ^ 6.
Proof.
  intros Hr B (lo & hi & L1 & L2 & N2 & I & E). exists lo, hi. split; auto. split; auto. split; auto.
  pose proof (B _ (proj1 L1)) as B1. pose proof (B _ (proj1 L2)) as B2. apply Rabs_le_inv in B1, B2.
  assert (EE : u64 * 460 <= / 10 ^ 13).
  { apply Rmult_le_reg_r with (10 ^ 13); [lra|]. rewrite Rinv_l by lra. replace (u64 * 460 * 10 ^ 13) with (u64 * (460 * 10 ^ 13)) by ring. rewrite <- u53. pose proof u64_pos. apply Rmult_le_compat_l; lra. }
  assert (EP : 0 < u64 * 460) by (pose proof u64_pos; lra). set (e := u64 * 460) in *. clearbody e.
  set (n := List.length c) in *. pose proof (I (n - 1)%nat ltac:(lia)) as L. rewrite minus_INR in L by lia. simpl (INR 1) in L. apply Rabs_le_inv in L.
  set (z := get 0 c (n - 1)) in *. pose proof (pos_INR n) as P. set (q := INR n) in *.
  assert (Q : q <= 2 * 10 ^ 6).
  { destruct (Rle_dec q (2 * 10 ^ 6)) as [|H]; auto. exfalso. apply Rnot_le_lt in H.
    assert (q * e <= q * / 10 ^ 13) by (apply Rmult_le_compat_l; lra). assert (q * / 1000 <= q * r) by (apply Rmult_le_compat_l; lra).
    assert (QB : (q - 3) * r < 720 + (6 * q + 18) * e) by lra. assert ((q - 3) * / 1000 <= (q - 3) * r) by (apply Rmult_le_compat_l; lra). lra. }
  assert (S : (3 * q + 14) * e <= / 10 ^ 6).
  { apply Rle_trans with ((3 * (2 * 10 ^ 6) + 14) * / 10 ^ 13); [apply Rmult_le_compat; lra|lra]. }
  split; [|lra].
  intros i Hi. eapply Rle_trans; [apply I; auto|]. eapply Rle_trans; [|exact S]. apply Rmult_le_compat_r; [lra|].
  assert (INR i <= q) by (apply le_INR; lia). lra.
Qed.

Lemma float_grid_degrees (x y : list F64) (xs ys : list R) fr r xg yg : xg = None \/ yg = None ->
  are_nums x xs -> are_nums y ys -> xs <> [] -> ys <> [] -> is_num fr r -> / 1000 <= r <= 100 ->
  (forall v, In v (xs ++ ys) -> Rabs v <= 360) ->
  exists g xc yc zx zy, parse_grid_kwargs x y xg yg (Some fr) = Ok g /\ product_grid xc yc g /\ values xc zx /\ values yc zy /\
  forall l z, l = xs /\ z = zx \/ l = ys /\ z = zy ->
    exists lo hi, least l lo /\ greatest l hi /\ (2 <= List.length z)%nat /\
    (forall i, (i < List.length z)%nat -> Rabs (get 0 z i - (lo - r + INR i * r)) <= / 10 ^ 6) /\
    hi - / 10 ^ 6 <= get 0 z (List.length z - 1) < hi + r + / 10 ^ 6.
Proof.
  intros Hg Fx Fy Nx Ny Hr R0 B.
  destruct (float_grid x y xs ys fr r 460 xg yg Hg Fx Fy Nx Ny Hr) as (g & xc & yc & zx & zy & E & P & V1 & V2 & C1 & C2); try lra.
  - intros v Hv. specialize (B v Hv). lra.
  - split; [apply Rle_trans with (bpow radix2 0); [apply bpow_le; lia|change (bpow radix2 0) with 1; lra]|apply Rle_trans with (bpow radix2 9); [change (bpow radix2 9) with 512; lra|apply bpow_le; lia]].
  - exists g, xc, yc, zx, zy. do 4 (split; [assumption|]). intros l z [(-> & ->)|(-> & ->)]; apply covers_degrees; auto; intros v Hv; apply B, in_or_app; auto.
Qed.
