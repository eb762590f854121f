(** * Proofs about grid generation and the climatological variogram *)
From Coq Require Import List ZArith Bool Reals Lra Lia.
From Flocq Require Import Core.Raux Core.Generic_fmt.
From Verif Require Import Base Grid_model Grid_spec.
Import ListNotations.
Local Open Scope R_scope.

Lemma fold_min_spec l : forall x, In (fold_left Rmin l x) (x :: l) /\ forall y, In y (x :: l) -> fold_left Rmin l x <= y.
Proof.
  induction l as [|a l IH]; intros x; cbn [fold_left].
  - split; [left; auto|]. intros y [<-|[]]; lra.
  - destruct (IH (Rmin x a)) as [I1 I2]. split.
    + destruct I1 as [I1|I1]; [|right; right; auto]. rewrite <- I1. unfold Rmin. destruct (Rle_dec x a); [left|right; left]; auto.
    + pose proof (I2 (Rmin x a) (or_introl eq_refl)). pose proof (Rmin_l x a). pose proof (Rmin_r x a).
      intros y [<-|[<-|Hy]]; [lra|lra|apply I2; right; auto].
Qed.
Lemma fold_max_spec l : forall x, In (fold_left Rmax l x) (x :: l) /\ forall y, In y (x :: l) -> y <= fold_left Rmax l x.
Proof.
  induction l as [|a l IH]; intros x; cbn [fold_left].
  - split; [left; auto|]. intros y [<-|[]]; lra.
  - destruct (IH (Rmax x a)) as [I1 I2]. split.
    + destruct I1 as [I1|I1]; [|right; right; auto]. rewrite <- I1. unfold Rmax. destruct (Rle_dec x a); [right; left|left]; auto.
    + pose proof (I2 (Rmax x a) (or_introl eq_refl)). pose proof (Rmax_l x a). pose proof (Rmax_r x a).
      intros y [<-|[<-|Hy]]; [lra|lra|apply I2; right; auto].
Qed.

Lemma coords_cover l r : l <> [] -> 0 < r ->
  exists lo hi c, py_list_min l = Ok lo /\ py_list_max l = Ok hi /\ arange (lo - r) (hi + r) r = Ok c /\ covers l r c.
Proof.
  intros Hl Hr. destruct l as [|x l]; [congruence|]. cbn [py_list_min py_list_max].
  destruct (fold_min_spec l x) as [Ilo Llo], (fold_max_spec l x) as [Ihi Lhi].
  set (lo := fold_left Rmin l x) in *. set (hi := fold_left Rmax l x) in *.
  assert (Hlh : lo <= hi) by (apply Llo; auto).
  exists lo, hi. unfold arange. rewrite Req_bool_false by lra.
  set (w := (hi + r - (lo - r)) / r).
  set (n := Zceil w).
  assert (Hw : 2 <= w).
  { unfold w. apply Rmult_le_reg_r with r; auto. unfold Rdiv. rewrite Rmult_assoc, Rinv_l by lra. lra. }
  assert (Hn : w <= IZR n) by apply Zceil_ub.
  assert (Hn2 : IZR n < w + 1) by (pose proof (Zceil_lb w); fold n in H; lra).
  assert (Hn3 : (2 <= n)%Z) by (apply le_IZR; lra).
  eexists. split; [reflexivity|]. split; [reflexivity|]. split; [reflexivity|].
  exists lo, hi. rewrite map_length, seq_length.
  assert (G : forall i, (i < Z.to_nat n)%nat -> get 0 (map (fun i => lo - r + INR i * r) (seq 0 (Z.to_nat n))) i = lo - r + INR i * r)
    by (intros; rewrite get_map_seq; auto).
  split; [split; auto|]. split; [split; auto|]. split; [lia|]. split; auto.
  rewrite G by lia.
  assert (E : INR (Z.to_nat n - 1) = IZR n - 1).
  { rewrite minus_INR by lia. rewrite INR_IZR_INZ, Z2Nat.id by lia. simpl. lra. }
  rewrite E.
  assert (Ew : w * r = hi + r - (lo - r)) by (unfold w, Rdiv; rewrite Rmult_assoc, Rinv_l by lra; ring).
  assert (w * r <= IZR n * r) by (apply Rmult_le_compat_r; lra).
  assert (IZR n * r < (w + 1) * r) by (apply Rmult_lt_compat_r; lra). lra.
Qed.

Lemma generated_grid x y xg yg r : xg = None \/ yg = None -> x <> [] -> y <> [] -> 0 < r ->
  exists xc yc xgrid ygrid, parse_grid_kwargs x y xg yg (Some r) = Ok (xgrid, ygrid) /\ covers x r xc /\ covers y r yc /\
  length xgrid = length yc /\ length ygrid = length yc /\
  forall i j, (i < length yc)%nat -> (j < length xc)%nat ->
    length (get [] xgrid i) = length xc /\ length (get [] ygrid i) = length xc /\
    get 0 (get [] xgrid i) j = get 0 xc j /\ get 0 (get [] ygrid i) j = get 0 yc i.
Proof.
  intros Hg Hx Hy Hr.
  destruct (coords_cover x r Hx Hr) as (xlo & xhi & xc & E1 & E2 & E3 & Cx).
  destruct (coords_cover y r Hy Hr) as (ylo & yhi & yc & F1 & F2 & F3 & Cy).
  exists xc, yc, (repeat xc (length yc)), (map (fun y => repeat y (length xc)) yc).
  split; [|split; auto; split; auto; split; [apply repeat_length|split; [apply map_length|]]].
  - unfold parse_grid_kwargs.
    rewrite E1, E2, F1, F2. cbn [bind]. rewrite E3, F3. cbn [bind].
    destruct xg, yg; auto. destruct Hg; discriminate.
  - intros i j Hi Hj. rewrite get_repeat by auto. rewrite get_map with (d := 0) by auto.
    rewrite repeat_length, get_repeat by auto. auto.
Qed.

Lemma grid_needs_resolution x y xg yg : xg = None \/ yg = None -> parse_grid_kwargs x y xg yg None = Err ValueError.
Proof. intros [->| ->]; unfold parse_grid_kwargs; destruct xg || destruct yg; auto. Qed.
Lemma grid_given x y xg yg r : parse_grid_kwargs x y (Some xg) (Some yg) r = Ok (xg, yg).
Proof. reflexivity. Qed.

(** ** variogram *)
Lemma julian_day_range y m d : (1 <= m <= 12)%nat -> (1 <= d <= 31)%nat -> (1 <= julian_day y m d <= 366)%Z.
Proof.
  intros Hm Hd. unfold julian_day, days_before.
  do 13 (destruct m as [|m]; [try lia; cbn [nth Nat.sub Nat.ltb Nat.leb andb]; destruct (leap y); lia|]). lia.
Qed.

Lemma leap_spec y : leap y = true <-> leap_year y.
Proof.
  unfold leap, leap_year. rewrite andb_true_iff, orb_true_iff, negb_true_iff, !Z.eqb_eq, Z.eqb_neq, !Z.mod_divide by lia. tauto.
Qed.
Lemma month_days y m n : days_in_month y m n -> (1 <= m <= 12)%nat /\ Z.of_nat n = (days_before y (m + 1) - days_before y m
   + (if Nat.eqb m 12 then 31 else 0))%Z.
Proof.
  intros [[H ->]|[[H ->]|[(-> & H & ->)|(-> & H & ->)]]].
  - simpl in H. unfold days_before. repeat (destruct H as [<-|H]; [split; [lia|]; cbn; destruct (leap y); reflexivity|]). contradiction.
  - simpl in H. unfold days_before. repeat (destruct H as [<-|H]; [split; [lia|]; cbn; destruct (leap y); reflexivity|]). contradiction.
  - apply leap_spec in H. split; [lia|]. unfold days_before. cbn. rewrite H. reflexivity.
  - assert (leap y = false) by (destruct (leap y) eqn:E; auto; apply leap_spec in E; contradiction).
    split; [lia|]. unfold days_before. cbn. rewrite H0. reflexivity.
Qed.
Lemma month_exists y m : (1 <= m <= 12)%nat -> exists n, days_in_month y m n.
Proof.
  intros H. unfold days_in_month.
  assert (D : leap_year y \/ ~ leap_year y) by (rewrite <- leap_spec; destruct (leap y); auto).
  do 13 (destruct m as [|m]; [first [lia | exists 31%nat; left; simpl; tauto | exists 30%nat; right; left; simpl; tauto
    | destruct D; [exists 29%nat; tauto|exists 28%nat; tauto]]|]). lia.
Qed.
Lemma month_31 y m n : days_in_month y m n -> (1 <= n <= 31)%nat.
Proof. intros [[H ->]|[[H ->]|[(-> & H & ->)|(-> & H & ->)]]]; lia. Qed.

Lemma julian_day_counts y m d k : day_number y m d k -> julian_day y m d = k.
Proof.
  induction 1 as [|m d n k H IH M L|m d k H IH M L]; unfold julian_day in *; [reflexivity|lia|].
  destruct (month_days _ _ _ M) as [R E]. destruct (Nat.eqb_spec m 12); [lia|]. replace (S m) with (m + 1)%nat by lia. lia.
Qed.
Lemma julian_day_total y m d n : days_in_month y m n -> (1 <= d <= n)%nat -> day_number y m d (julian_day y m d).
Proof.
  intros M. pose proof (proj1 (month_days _ _ _ M)) as Hm. revert d n M.
  assert (G : forall m, (1 <= m <= 12)%nat -> day_number y m 1 (julian_day y m 1)).
  { intros m0. induction m0 as [|m0 IH]; intros R; [lia|]. destruct (Nat.eq_dec m0 0) as [->|NZ]; [apply january_first|].
    destruct (month_exists y m0 ltac:(lia)) as [n N].
    assert (A : forall d, (1 <= d <= n)%nat -> exists k, day_number y m0 d k).
    { intros d. induction d as [|d IHd]; intros Hd; [lia|]. destruct (Nat.eq_dec d 0) as [->|]; [eexists; apply IH; lia|].
      destruct IHd as [k Hk]; [lia|]. exists (k + 1)%Z. eapply next_day; eauto. lia. }
    destruct (A n) as [k Hk]; [pose proof (month_31 _ _ _ N); lia|].
    assert (Q : day_number y (S m0) 1 (k + 1)) by (eapply next_month; eauto; lia).
    rewrite (julian_day_counts _ _ _ _ Q). exact Q. }
  intros d n M. induction d as [|d IH]; intros Hd; [lia|]. destruct (Nat.eq_dec d 0) as [->|]; [apply G; auto|].
  assert (Q : day_number y m (S d) (julian_day y m d + 1)) by (eapply next_day; [apply IH; lia|eauto|lia]).
  rewrite (julian_day_counts _ _ _ _ Q). exact Q.
Qed.

Lemma Rpower_pos x y : 0 < Rpower x y.
Proof. apply exp_pos. Qed.

Lemma Rpower_quarter x : 0 < x -> Rpower x (1 / 4) ^ 4 = x.
Proof.
  intros H. rewrite <- Rpower_pow by apply Rpower_pos. rewrite Rpower_mult. replace (1 / 4 * INR 4) with 1 by (simpl; lra).
  apply Rpower_1; auto.
Qed.

Lemma quarter_60 : Rpower 60 (1 / 4) < 4.
Proof.
  apply Rnot_le_lt. intros H. assert (4 ^ 4 <= Rpower 60 (1 / 4) ^ 4) by (apply pow_incr; lra).
  rewrite Rpower_quarter in H0 by lra. lra.
Qed.

Lemma Rpower_small h a : 1 / 60 <= h -> 0 <= a <= 1 / 4 -> Rpower h (- a) < 4.
Proof.
  intros Hh Ha. apply Rle_lt_trans with (Rpower 60 (1 / 4)); [|apply quarter_60].
  rewrite Rpower_Ropp. assert (Hp : Rpower (/ 60) a <= Rpower h a) by (apply Rle_Rpower_l; [lra|lra]).
  apply Rle_trans with (/ Rpower (/ 60) a).
  - apply Rinv_le_contravar; auto. apply Rpower_pos.
  - unfold Rpower at 1. rewrite ln_Rinv by lra. rewrite <- exp_Ropp. replace (- (a * - ln 60)) with (a * ln 60) by ring.
    fold (Rpower 60 a). apply Rle_Rpower; lra.
Qed.

Lemma affine_cos_bounds a b c : 0 < a -> 0 < b -> b < a -> (a - b) ^ 4 <= (a + b * cos c) ^ 4 <= (a + b) ^ 4 /\ 0 < a + b * cos c.
Proof.
  intros Ha Hb Hab. destruct (COS_bound c) as [C1 C2].
  assert (- b <= b * cos c) by (replace (- b) with (b * (-1)) by ring; apply Rmult_le_compat_l; lra).
  assert (b * cos c <= b) by (replace b with (b * 1) at 2 by ring; apply Rmult_le_compat_l; lra).
  split; [split; apply pow_incr; lra|lra].
Qed.

Lemma clim_var_general jd h : 0 < h ->
  exists v, clim_var_param jd h = Ok v /\ 0 <= v_sill v /\ 0 <= v_range v /\ v_nugget v = v_sill v / 10.
Proof.
  intros Hh. unfold clim_var_param. rewrite Req_bool_false by lra. cbv zeta. eexists. split; [reflexivity|]. cbn [v_sill v_range v_nugget].
  assert (P4 : forall x, 0 <= x ^ 4) by (intros x; replace (x ^ 4) with (Rsqr (x * x)) by (unfold Rsqr; ring); apply Rle_0_sqr).
  split; [apply P4|]. split; [|lra].
  set (b := 1551 / 100 * Rpower h (9 / 100) + _). pose proof (P4 b). lra.
Qed.

Lemma clim_var_bounds jd h : 1 / 60 <= h ->
  exists v, clim_var_param jd h = Ok v /\
  0 < (84 / 100 * Rpower h (- (25 / 100)) - 20 / 100 * Rpower h (- (37 / 100))) ^ 4 <= v_sill v /\
  v_sill v <= (84 / 100 * Rpower h (- (25 / 100)) + 20 / 100 * Rpower h (- (37 / 100))) ^ 4 /\
  0 < (1551 / 100 * Rpower h (9 / 100) - 206 / 100 * Rpower h (- (12 / 100))) ^ 4 / 1000 <= v_range v /\
  v_range v <= (1551 / 100 * Rpower h (9 / 100) + 206 / 100 * Rpower h (- (12 / 100))) ^ 4 / 1000.
Proof.
  intros Hh. unfold clim_var_param. rewrite Req_bool_false by lra. cbv zeta. eexists. split; [reflexivity|]. cbn [v_sill v_range].
  assert (A1 : 20 / 100 * Rpower h (- (37 / 100)) < 84 / 100 * Rpower h (- (25 / 100))).
  { replace (- (37 / 100)) with (- (25 / 100) + - (12 / 100)) by lra. rewrite Rpower_plus.
    pose proof (Rpower_small h (12 / 100) Hh ltac:(lra)). pose proof (Rpower_pos h (- (25 / 100))).
    assert (Rpower h (- (25 / 100)) * Rpower h (- (12 / 100)) <= Rpower h (- (25 / 100)) * 4) by (apply Rmult_le_compat_l; lra). lra. }
  assert (A2 : 206 / 100 * Rpower h (- (12 / 100)) < 1551 / 100 * Rpower h (9 / 100)).
  { replace (- (12 / 100)) with (9 / 100 + - (21 / 100)) by lra. rewrite Rpower_plus.
    pose proof (Rpower_small h (21 / 100) Hh ltac:(lra)). pose proof (Rpower_pos h (9 / 100)).
    assert (Rpower h (9 / 100) * Rpower h (- (21 / 100)) <= Rpower h (9 / 100) * 4) by (apply Rmult_le_compat_l; lra). lra. }
  pose proof (Rpower_pos h (- (25 / 100))). pose proof (Rpower_pos h (- (37 / 100))).
  pose proof (Rpower_pos h (9 / 100)). pose proof (Rpower_pos h (- (12 / 100))).
  set (p1 := Rpower h (- (25 / 100))) in *. set (p2 := Rpower h (- (37 / 100))) in *.
  set (p3 := Rpower h (9 / 100)) in *. set (p4 := Rpower h (- (12 / 100))) in *.
  destruct (affine_cos_bounds (84 / 100 * p1) (20 / 100 * p2) (2 * PI * (1 / 365) * (jd - 162 * Rpower h (- (3 / 100))))) as [[B1 B2] _]; [lra..|].
  destruct (affine_cos_bounds (1551 / 100 * p3) (206 / 100 * p4) (2 * PI * (1 / 365) * (jd - 737 / 100 * Rpower h (22 / 100)))) as [[B3 B4] _]; [lra..|].
  assert (0 < (84 / 100 * p1 - 20 / 100 * p2) ^ 4) by (apply pow_lt; lra).
  assert (0 < (1551 / 100 * p3 - 206 / 100 * p4) ^ 4) by (apply pow_lt; lra).
  repeat split; lra.
Qed.
