(** * How the rain rate depends on length, coefficients and threshold *)
From Coq Require Import List ZArith Bool String Reals Lra Lia.
From Flocq Require Import Core.
From Verif Require Import Base Num NumList RealSpec Libm KR_model KR_spec KR_proofs.
Import ListNotations.
Local Open Scope nat_scope.

Section Gen.
Context {O : numops} (S : numsem O) (L : libm O).
Variable cubic : list O -> list O -> O -> O.
Notation calc := (calc_R_from_A L cubic).

Lemma mul_mono_pos (x x' y y' : O) : nonneg x -> nonneg y -> n_leb x x' = true -> n_leb y y' = true ->
  finite x' -> finite y' -> n_leb (n_mul x y) (n_mul x' y') = true.
Proof.
  rewrite !(finite_val S), !(val_nonneg S), !(val_leb _ S). intros Hx Hy Hxx Hyy (r' & E1) (s' & E2).
  rewrite !(val_mul _ S), E1, E2 in *. apply (rnd_mono _ S).
  destruct (val S x) as [| |r|]; try discriminate; destruct (val S y) as [| |s|]; try discriminate.
  apply xleb_fin in Hx, Hy, Hxx, Hyy. apply xleb_fin. apply Rmult_le_compat; lra.
Qed.

Lemma div_anti (x d d' : O) : nonneg x -> positive d -> n_leb d d' = true -> finite d' ->
  n_leb (n_div x d') (n_div x d) = true.
Proof.
  rewrite (finite_val S), (val_positive S), (val_nonneg S), !(val_leb _ S). intros Hx Hd Hdd (s' & E).
  rewrite E in Hdd. destruct (val S d) as [| |s|] eqn:D; try discriminate. apply xltb_fin in Hd. apply xleb_fin in Hdd.
  rewrite !(val_div _ S) by (rewrite ?E, ?D; intros Q; injection Q; lra).
  rewrite E, D. apply (rnd_mono _ S). destruct (val S x) as [| |r|]; try discriminate.
  - apply xleb_fin in Hx. rewrite !xdiv_fin by lra. apply xleb_fin.
    unfold Rdiv. apply Rmult_le_compat_l; auto. apply Rinv_le_contravar; lra.
  - cbn [xdiv]. xcases; auto; lra.
Qed.

Lemma rate_anti (sane : pow_sane L) (mono : pow_mono L) al al' e R_min x :
  positive al -> n_leb al al' = true -> finite al' -> nonneg e -> n_isnan x = false ->
  n_leb (rate L al' e R_min x) (rate L al e R_min x) = true.
Proof.
  intros Hal Hle Fal He N.
  assert (Z : n_isnan (zero : O) = false) by (apply (isnan_ofZ S); simpl; discriminate).
  assert (Z2 : n_leb (zero : O) zero = true) by (apply (leb_refl S); auto).
  assert (Hal' : positive al').
  { unfold positive in *. rewrite (val_ltb _ S) in *. rewrite (val_leb _ S) in Hle. eapply xltb_leb_trans; eauto. }
  assert (Fa : finite al).
  { revert Hle Hal Fal. rewrite !(finite_val S), (val_positive S), (val_leb _ S). intros H1 H2 (r & E). rewrite E in H1.
    destruct (val S al); try discriminate. eauto. }
  unfold rate. rewrite N. cbv zeta.
  assert (P : forall d, positive d -> finite d -> n_leb zero x = true -> n_leb zero (m_pow L (n_div x d) e) = true).
  { intros. apply sane; auto. apply (div_nonneg S); auto. }
  set (r := if n_leb zero x then m_pow L (n_div x al) e else zero).
  set (r' := if n_leb zero x then m_pow L (n_div x al') e else zero).
  assert (R0 : n_leb zero r = true) by (unfold r; destruct (n_leb zero x) eqn:E; auto).
  assert (RR : n_leb r' r = true).
  { unfold r, r'. destruct (n_leb zero x) eqn:E; auto. apply mono; auto.
    - apply (div_nonneg S); auto.
    - apply div_anti; auto. }
  destruct (n_ltb r' R_min) eqn:E1, (n_ltb r R_min) eqn:E2; auto.
  exfalso. rewrite (val_ltb _ S) in E1, E2. rewrite (val_leb _ S) in RR.
  pose proof (xleb_ltb_trans _ _ _ RR E2). congruence.
Qed.

Lemma calc_anti (sane : pow_sane L) (mono : pow_mono L) A (L_km L_km' a a' b R_min : O) ap R R' :
  positive b -> nonneg a -> nonneg L_km -> n_leb a a' = true -> n_leb L_km L_km' = true -> finite a' -> finite L_km' ->
  positive (n_mul a L_km) -> finite (n_mul a' L_km') ->
  calc A L_km None None (Some (CScalar a)) (Some (CScalar b)) ap R_min = Ok R ->
  calc A L_km' None None (Some (CScalar a')) (Some (CScalar b)) ap R_min = Ok R' ->
  forall i, i < List.length A -> ~ missing (get n_nan A i) -> n_leb (get n_nan R' i) (get n_nan R i) = true.
Proof.
  intros Hb Ha HL Haa HLL Fa FL Hal Fal. rewrite !(calc_scalar S) by auto. intros E E'; injection E as <-; injection E' as <-.
  intros i Hi Hm. rewrite !get_map with (d := n_nan) by auto. apply not_true_is_false in Hm.
  apply rate_anti; auto.
  - apply mul_mono_pos; auto.
  - apply (inv_nonneg S); auto.
Qed.

Lemma calc_threshold A (L_km a b R_min R_min' : O) ap R R' :
  positive b -> n_leb R_min R_min' = true ->
  calc A L_km None None (Some (CScalar a)) (Some (CScalar b)) ap R_min = Ok R ->
  calc A L_km None None (Some (CScalar a)) (Some (CScalar b)) ap R_min' = Ok R' ->
  forall i, i < List.length A ->
  get n_nan R' i = if n_ltb (get n_nan R i) R_min' then n_ofZ 0 else get n_nan R i.
Proof.
  intros Hb Hle. rewrite !(calc_scalar S) by auto. intros E E'; injection E as <-; injection E' as <-.
  intros i Hi. rewrite !get_map with (d := n_nan) by auto. unfold rate.
  destruct (n_isnan (get n_nan A i)).
  { rewrite (ltb_nan_l S) by apply (isnan_nan S). reflexivity. }
  cbv zeta. set (r := if n_leb zero (get n_nan A i) then m_pow L (n_div (get n_nan A i) (n_mul a L_km)) (n_div one b) else zero).
  destruct (n_ltb r R_min) eqn:E1; [|reflexivity].
  assert (E2 : n_ltb r R_min' = true).
  { rewrite (val_ltb _ S) in *. rewrite (val_leb _ S) in Hle. eapply xltb_leb_trans; eauto. }
  rewrite E2. destruct (n_ltb zero R_min'); reflexivity.
Qed.

Lemma calc_product A (L_km L_km' a a' b R_min : O) ap :
  positive b -> n_mul a L_km = n_mul a' L_km' ->
  calc A L_km None None (Some (CScalar a)) (Some (CScalar b)) ap R_min =
  calc A L_km' None None (Some (CScalar a')) (Some (CScalar b)) ap R_min.
Proof. intros Hb E. rewrite !(calc_scalar S) by auto. rewrite E. reflexivity. Qed.
End Gen.

(** ** exact arithmetic *)
Section Exact.
Local Open Scope R_scope.
Variable cubic : list XR -> list XR -> XR -> XR.

Lemma mul_fin x y : n_mul (XFin x : XR) (XFin y : XR) = XFin (x * y).
Proof. reflexivity. Qed.

(** attenuation and length in another unit *)
Lemma calc_ratio (A : list R) c a b l R_min ap : 0 < a -> 0 < b -> 0 < l -> 0 < c ->
  calc_R_from_A XRm cubic (ofR (map (Rmult c) A)) (XFin (c * l) : XR) None None (Some (CScalar (XFin a : XR))) (Some (CScalar (XFin b : XR))) ap (XFin R_min : XR) =
  calc_R_from_A XRm cubic (ofR A) (XFin l : XR) None None (Some (CScalar (XFin a : XR))) (Some (CScalar (XFin b : XR))) ap (XFin R_min : XR).
Proof.
  intros Ha Hb Hl Hc. rewrite !(calc_scalar XRsem) by (apply pos_XR; auto). f_equal.
  unfold ofR. rewrite !map_map. apply map_ext_in. intros x _. rewrite !mul_fin.
  change (n_div one (XFin b : XR)) with (xdiv (XFin 1) (XFin b)). rewrite (xdiv_fin 1 b) by lra.
  assert (0 < a * l) by (apply Rmult_lt_0_compat; auto). assert (0 < c * l) by (apply Rmult_lt_0_compat; auto).
  assert (0 < a * (c * l)) by (apply Rmult_lt_0_compat; auto). assert (0 < 1 / b) by (apply Rdiv_lt_0_compat; lra).
  destruct (Rtotal_order x 0) as [Hx|[->|Hx]].
  - rewrite !rate_exact_neg; auto. pose proof (Rmult_lt_0_compat c (- x)). lra.
  - rewrite Rmult_0_r. rewrite !rate_exact_0; auto.
  - assert (0 < c * x) by (apply Rmult_lt_0_compat; auto). rewrite !rate_exact_pos by auto.
    replace (c * x / (a * (c * l))) with (x / (a * l)) by (field; lra). reflexivity.
Qed.

(** attenuation c^b times as large: rain c times as large, if the threshold follows *)
Lemma calc_homogeneous (A : list R) c a b l R_min ap : 0 < a -> 0 < b -> 0 < l -> 0 < c ->
  exists Rs, calc_R_from_A XRm cubic (ofR A) (XFin l : XR) None None (Some (CScalar (XFin a : XR))) (Some (CScalar (XFin b : XR))) ap (XFin R_min : XR) = Ok (ofR Rs) /\
  calc_R_from_A XRm cubic (ofR (map (Rmult (Rpower c b)) A)) (XFin l : XR) None None (Some (CScalar (XFin a : XR))) (Some (CScalar (XFin b : XR))) ap (XFin (c * R_min) : XR) = Ok (ofR (map (Rmult c) Rs)).
Proof.
  intros Ha Hb Hl Hc. assert (0 < a * l) by (apply Rmult_lt_0_compat; auto). assert (0 < 1 / b) by (apply Rdiv_lt_0_compat; lra).
  pose proof (exp_pos (b * ln c)) as Hp. fold (Rpower c b) in Hp.
  exists (map (fun x => if Rlt_dec 0 x then (if Rlt_dec (Rpower (x / (a * l)) (1 / b)) R_min then 0 else Rpower (x / (a * l)) (1 / b)) else 0) A).
  rewrite !(calc_scalar XRsem) by (apply pos_XR; auto). 
  change (n_div one (XFin b : XR)) with (xdiv (XFin 1) (XFin b)). rewrite (xdiv_fin 1 b) by lra. rewrite !mul_fin.
  split; f_equal; unfold ofR; rewrite !map_map; apply map_ext_in; intros x _.
  - destruct (Rlt_dec 0 x) as [Hx|Hx].
    + rewrite rate_exact_pos by auto. destruct (Rlt_dec _ _); destruct (Rlt_bool_spec (Rpower (x / (a * l)) (1 / b)) R_min); auto; lra.
    + destruct (Req_dec x 0) as [->|]; [apply rate_exact_0; auto|apply rate_exact_neg; lra].
  - destruct (Rlt_dec 0 x) as [Hx|Hx].
    + assert (0 < Rpower c b * x) by (apply Rmult_lt_0_compat; auto). rewrite rate_exact_pos by auto.
      assert (E : Rpower (Rpower c b * x / (a * l)) (1 / b) = c * Rpower (x / (a * l)) (1 / b)).
      { replace (Rpower c b * x / (a * l)) with (Rpower c b * (x / (a * l))) by (field; lra).
        rewrite <- Rpower_mult_distr; [|auto|apply Rdiv_lt_0_compat; auto]. rewrite Rpower_inv_cancel by lra. reflexivity. }
      rewrite E. set (q := Rpower (x / (a * l)) (1 / b)).
      destruct (Rlt_dec q R_min) as [Hq|Hq].
      * rewrite Rlt_bool_true by (apply Rmult_lt_compat_l; auto). f_equal. lra.
      * rewrite Rlt_bool_false by (apply Rmult_le_compat_l; lra). reflexivity.
    + rewrite Rmult_0_r. destruct (Req_dec x 0) as [->|Hx0]; [rewrite Rmult_0_r; apply rate_exact_0; auto|apply rate_exact_neg].
      pose proof (Rmult_lt_0_compat (Rpower c b) (- x)). lra.
Qed.

(** a larger exponent: less rain above the rate of 1 mm/h, more below *)
Lemma calc_exponent (A : list R) a b b' l R_min ap : 0 < a -> 0 < l -> 0 < b -> b <= b' -> 
  exists Rs Rs', calc_R_from_A XRm cubic (ofR A) (XFin l : XR) None None (Some (CScalar (XFin a : XR))) (Some (CScalar (XFin b : XR))) ap (XFin R_min : XR) = Ok (ofR Rs) /\
  calc_R_from_A XRm cubic (ofR A) (XFin l : XR) None None (Some (CScalar (XFin a : XR))) (Some (CScalar (XFin b' : XR))) ap (XFin R_min : XR) = Ok (ofR Rs') /\
  forall i, (i < List.length A)%nat -> (a * l <= rget A i -> rget Rs' i <= rget Rs i) /\ (rget A i <= a * l -> rget Rs i <= rget Rs' i).
Proof.
  intros Ha Hl Hb Hbb. assert (0 < a * l) by (apply Rmult_lt_0_compat; auto).
  set (F := fun e x => if Rlt_dec 0 x then (if Rlt_dec (Rpower (x / (a * l)) (1 / e)) R_min then 0 else Rpower (x / (a * l)) (1 / e)) else 0).
  assert (K : forall e, 0 < e -> calc_R_from_A XRm cubic (ofR A) (XFin l : XR) None None (Some (CScalar (XFin a : XR))) (Some (CScalar (XFin e : XR))) ap (XFin R_min : XR) = Ok (ofR (map (F e) A))).
  { intros e He. rewrite (calc_scalar XRsem) by (apply pos_XR; auto). assert (0 < 1 / e) by (apply Rdiv_lt_0_compat; lra).
    change (n_div one (XFin e : XR)) with (xdiv (XFin 1) (XFin e)). rewrite (xdiv_fin 1 e) by lra. rewrite !mul_fin.
    f_equal; unfold ofR; rewrite !map_map; apply map_ext_in; intros x _. unfold F. destruct (Rlt_dec 0 x) as [Hx|Hx].
    + rewrite rate_exact_pos by auto. destruct (Rlt_dec _ _); destruct (Rlt_bool_spec (Rpower (x / (a * l)) (1 / e)) R_min); auto; lra.
    + destruct (Req_dec x 0) as [->|]; [apply rate_exact_0; auto|apply rate_exact_neg; lra]. }
  exists (map (F b) A), (map (F b') A). split; [apply K; auto|]. split; [apply K; lra|].
  intros i Hi. unfold rget. rewrite !get_map with (d := 0) by auto. set (x := get 0 A i). unfold F.
  assert (I : 1 / b' <= 1 / b) by (unfold Rdiv; rewrite !Rmult_1_l; apply Rinv_le_contravar; lra).
  assert (P : forall e, 0 < Rpower (x / (a * l)) e) by (intros e; apply exp_pos).
  pose proof (P (1 / b)) as P1. pose proof (P (1 / b')) as P2. destruct (Rlt_dec 0 x) as [Hx|Hx]; [|split; lra].
  split; intros Hq.
  - assert (Rpower (x / (a * l)) (1 / b') <= Rpower (x / (a * l)) (1 / b)).
    { apply Rle_Rpower; auto. apply Rmult_le_reg_r with (a * l); auto. unfold Rdiv. rewrite Rmult_assoc, Rinv_l; lra. }
    clear - H0 P1 P2. destruct (Rlt_dec _ _), (Rlt_dec _ _); lra.
  - assert (Rpower (x / (a * l)) (1 / b) <= Rpower (x / (a * l)) (1 / b')).
    { unfold Rpower. assert (ln (x / (a * l)) <= 0).
      { rewrite <- ln_1. destruct (Req_dec x (a * l)) as [->|Hne].
        - right. f_equal. field. lra.
        - left. apply ln_increasing; [apply Rdiv_lt_0_compat; auto|]. apply Rmult_lt_reg_r with (a * l); auto. unfold Rdiv. rewrite Rmult_assoc, Rinv_l; lra. }
      destruct (Req_dec (1 / b * ln (x / (a * l))) (1 / b' * ln (x / (a * l)))) as [->|Hne]; [lra|]. left. apply exp_increasing.
      pose proof (Rmult_le_compat_neg_l (ln (x / (a * l))) (1 / b') (1 / b)). lra. }
    clear - H0 P1 P2. destruct (Rlt_dec _ _), (Rlt_dec _ _); lra.
Qed.
End Exact.
