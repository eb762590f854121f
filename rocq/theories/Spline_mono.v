(** * Bounds and monotonicity of the splines through the ITU tables *)
From Coq Require Import List ZArith QArith Qreals Reals Lra Lia Bool.
From Verif Require Import Base Num RealSpec Itu_table KR_spec Spline_spec Spline_proofs Spline_data Spline_cert Spline_itu.
Import ListNotations.
Local Open Scope R_scope.

(** ** a cubic whose derivative has positive Bernstein coefficients increases *)
Lemma bernstein_increasing y0 c1 c2 c3 h u v : 0 < h -> 0 <= u < v -> v <= h ->
  0 < c1 -> 0 < c1 + c2 * h -> 0 < c1 + 2 * c2 * h + 3 * c3 * h ^ 2 ->
  y0 + c1 * u + c2 * u ^ 2 + c3 * u ^ 3 < y0 + c1 * v + c2 * v ^ 2 + c3 * v ^ 3.
Proof.
  intros Hh Hu Hv D0 D1 D2.
  assert (Q : forall a b, 0 <= a <= h -> 0 <= b <= h -> 0 < c1 + c2 * (a + b) + 3 * c3 * a * b).
  { intros a b Ha Hb.
    assert (E : h ^ 2 * (c1 + c2 * (a + b) + 3 * c3 * a * b) =
      c1 * ((h - a) * (h - b)) + (c1 + c2 * h) * (a * (h - b) + b * (h - a)) + (c1 + 2 * c2 * h + 3 * c3 * h ^ 2) * (a * b)) by ring.
    assert (P1 : 0 <= (h - a) * (h - b)) by (apply Rmult_le_pos; lra).
    assert (P2 : 0 <= a * (h - b)) by (apply Rmult_le_pos; lra). assert (P3 : 0 <= b * (h - a)) by (apply Rmult_le_pos; lra).
    assert (P4 : 0 <= a * b) by (apply Rmult_le_pos; lra).
    set (d := Rmin c1 (Rmin (c1 + c2 * h) (c1 + 2 * c2 * h + 3 * c3 * h ^ 2))).
    assert (Dp : 0 < d) by (unfold d; repeat apply Rmin_glb_lt; auto).
    assert (L1 : d <= c1) by apply Rmin_l. assert (L2 : d <= c1 + c2 * h) by (eapply Rle_trans; [apply Rmin_r|apply Rmin_l]).
    assert (L3 : d <= c1 + 2 * c2 * h + 3 * c3 * h ^ 2) by (eapply Rle_trans; [apply Rmin_r|apply Rmin_r]).
    assert (G : d * h ^ 2 <= h ^ 2 * (c1 + c2 * (a + b) + 3 * c3 * a * b)).
    { rewrite E. replace (d * h ^ 2) with (d * ((h - a) * (h - b)) + d * (a * (h - b) + b * (h - a)) + d * (a * b)) by ring.
      apply Rplus_le_compat; [apply Rplus_le_compat|]; apply Rmult_le_compat_r; lra. }
    assert (H2 : 0 < h ^ 2) by (apply pow_lt; auto). assert (0 < d * h ^ 2) by (apply Rmult_lt_0_compat; auto).
    apply Rmult_lt_reg_l with (h ^ 2); auto. lra. }
  pose proof (Q u u ltac:(lra) ltac:(lra)). pose proof (Q u v ltac:(lra) ltac:(lra)). pose proof (Q v v ltac:(lra) ltac:(lra)).
  assert (E : y0 + c1 * v + c2 * v ^ 2 + c3 * v ^ 3 - (y0 + c1 * u + c2 * u ^ 2 + c3 * u ^ 3) =
    (v - u) * ((c1 + c2 * (u + u) + 3 * c3 * u * u + (c1 + c2 * (u + v) + 3 * c3 * u * v) + (c1 + c2 * (v + v) + 3 * c3 * v * v)) / 3)) by field.
  assert (0 < (v - u) * ((c1 + c2 * (u + u) + 3 * c3 * u * u + (c1 + c2 * (u + v) + 3 * c3 * u * v) + (c1 + c2 * (v + v) + 3 * c3 * v * v)) / 3)) by (apply Rmult_lt_0_compat; lra).
  lra.
Qed.

(** ** piecewise increasing is increasing *)
Lemma glue (x : nat -> R) (s : R -> R) k n : (forall i, (k <= i < n)%nat -> x i < x (i + 1)%nat) ->
  (forall i, (k <= i < n)%nat -> forall u v, x i <= u -> u < v -> v <= x (i + 1)%nat -> s u < s v) ->
  (k <= n)%nat -> forall u v, x k <= u -> u < v -> v <= x n -> s u < s v.
Proof.
  intros Hx Hs. induction n as [|n IH]; intros Hn u v Hu Huv Hv.
  - assert (k = 0)%nat by lia. subst. lra.
  - destruct (Nat.eq_dec k (S n)) as [->|NE]; [lra|].
    specialize (IH ltac:(intros; apply Hx; lia) ltac:(intros i Hi; apply Hs; lia) ltac:(lia)).
    assert (St : forall u v, x n <= u -> u < v -> v <= x (S n) -> s u < s v). { replace (S n) with (n + 1)%nat by lia. apply Hs. lia. }
    destruct (Rle_lt_dec v (x n)) as [V|V]; [apply IH; auto|]. destruct (Rle_lt_dec (x n) u) as [U|U]; [apply St; auto|].
    apply Rlt_trans with (s (x n)); [apply IH; lra|apply St; lra].
Qed.

Lemma abs_le_both a b : Rabs a <= b -> - b <= a <= b.
Proof. unfold Rabs. destruct (Rcase_abs a); lra. Qed.

(** ** light checks on top of [check] *)
Section Light.
Variables (xs ys ms : list Q) (rho : Q).
Local Open Scope Q_scope.
Let n := List.length xs.
(** all Bernstein coefficients lie between [lo] and [hi] *)
Definition check_bounds (lo hi : Q) : bool :=
  forallb (fun y => Qltb lo y && Qltb y hi) ys
  && forallb (fun i =>
       let h2 := hq xs i * hq xs i in
       let b1 := 6 * (2 * qget ys i + qget ys (i + 1)) - h2 * (2 * qget ms i + qget ms (i + 1)) in
       let b2 := 6 * (qget ys i + 2 * qget ys (i + 1)) - h2 * (qget ms i + 2 * qget ms (i + 1)) in
       let e := 9 * h2 * rho in
       Qltb (18 * lo + e) b1 && Qltb (b1 + e) (18 * hi) && Qltb (18 * lo + e) b2 && Qltb (b2 + e) (18 * hi)) (seq 0 (n - 1)).
(** [sg] times the derivative is positive from node [k] on *)
Definition slope (i : nat) : Q := (qget ys (i + 1) - qget ys i) / hq xs i.
Definition check_mono (sg : Z) (k : nat) : bool :=
  forallb (fun i =>
       let h := hq xs i in let d := 6 * slope i in
       Qltb (9 * h * rho) (inject_Z sg * (d - h * (2 * qget ms i + qget ms (i + 1))))
       && Qltb (6 * h * rho) (inject_Z sg * (d + h * (qget ms i - qget ms (i + 1))))
       && Qltb (9 * h * rho) (inject_Z sg * (d + h * (qget ms i + 2 * qget ms (i + 1))))) (seq k (n - 1 - k)).
End Light.

Section Sound.
Variables (xs ys ms : list Q) (rho : Q) (s : R -> R).
Hypothesis CK : check xs ys ms rho = true.
Hypothesis LY : List.length ys = List.length xs.
Hypothesis SPL : notaknot_spline (map Q2R xs) (map Q2R ys) s.
Let n := List.length xs.
Let X i := Q2R (qget xs i).
Let Y i := Q2R (qget ys i).
Let h i := Q2R (hq xs i).

Lemma hq_pos i : (i + 1 < n)%nat -> 0 < h i.
Proof using CK LY.
  intros Hi. pose proof CK as C. unfold check in C. cbv zeta in C.
  repeat match type of C with (_ && _ = true) => apply andb_prop in C; let C2 := fresh "K" in destruct C as [C C2] end.
  pose proof (forallb_seq _ _ i K7 ltac:(unfold n in Hi; lia)) as H. apply Qltb_true in H. unfold Q2R at 1 in H. simpl in H. unfold h. lra.
Qed.
Lemma X_next i : X (i + 1) = X i + h i.
Proof using. unfold X, h, hq. rewrite Q2R_minus. lra. Qed.

(** the second derivatives are close to the certificate *)
Lemma close : exists M : nat -> R,
  (forall i t, (i + 1 < n)%nat -> X i <= t <= X (i + 1)%nat ->
     s t = Y i + ((Y (i + 1)%nat - Y i) / h i - h i * (2 * M i + M (i + 1)%nat) / 6) * (t - X i)
         + M i / 2 * (t - X i) ^ 2 + (M (i + 1)%nat - M i) / (6 * h i) * (t - X i) ^ 3) /\
  (forall j, (j < n)%nat -> - (3 * Q2R rho) <= M j - Q2R (qget ms j) <= 3 * Q2R rho) /\ 0 <= Q2R rho /\ (4 <= n)%nat.
Proof using CK LY SPL.
  pose proof CK as C. unfold check in C. cbv zeta in C. fold n in C.
  repeat match type of C with (_ && _ = true) => apply andb_prop in C; let C2 := fresh "K" in destruct C as [C C2] end.
  apply Nat.leb_le in C.
  assert (LN : List.length (map Q2R xs) = n) by apply map_length.
  assert (HH : forall i, hh (map Q2R xs) i = h i).
  { intros i. unfold h, hh, hq. rewrite !rget_Q, Q2R_minus. reflexivity. }
  assert (HP : forall i, (i + 1 < n)%nat -> 0 < h i) by (intros; apply hq_pos; auto).
  assert (c2 : Q2R 2 = 2) by (unfold Q2R; simpl; lra).
  assert (c1 : Q2R 1 = 1) by (unfold Q2R; simpl; lra).
  assert (c6 : Q2R 6 = 6) by (unfold Q2R; simpl; lra).
  assert (N0 : forall q, 0 < Q2R q -> ~ (q == 0)%Q) by (intros q Hq E; apply Qeq_eqR in E; unfold Q2R at 2 in E; simpl in E; lra).
  assert (INC : forall i, (i + 1 < n)%nat -> rget (map Q2R xs) i < rget (map Q2R xs) (i + 1)).
  { intros i Hi. rewrite !rget_Q. specialize (HP i Hi). fold (X i) (X (i + 1)%nat). rewrite X_next. lra. }
  destruct (spline_second_derivs (map Q2R xs) (map Q2R ys) s) as (M & Sp & Row & E0 & E1); rewrite ?LN; auto.
  rewrite LN in *. exists M. split; [|split; [|split; [|exact C]]].
  - intros i t Hi Ht. rewrite (Sp i t Hi) by (rewrite !rget_Q; exact Ht). rewrite !HH, !rget_Q. reflexivity.
  - intros j Hj. apply abs_le_both. revert j Hj. apply (all_bound n (hh (map Q2R xs)) (fun j => M j - Q2R (qget ms j)) (Q2R rho)); auto.
    + intros i Hi. rewrite HH. auto.
    + intros i Hi. rewrite !HH. pose proof (forallb_seq _ _ i K6 ltac:(lia)) as H. apply Qleb_true in H. rewrite Q2R_plus in H. fold (h i) (h (i + 1)%nat) in H. lra.
    + rewrite !HH. apply Qleb_true; auto.
    + rewrite !HH. apply Qleb_true; auto.
    + apply Qeq_bool_eq in K3. apply Qeq_eqR in K3. rewrite !Q2R_mult, !Q2R_minus in K3. fold (h 0%nat) (h 1%nat) in K3. rewrite !HH in *. lra.
    + apply Qeq_bool_eq in K2. apply Qeq_eqR in K2. rewrite !Q2R_mult, !Q2R_minus in K2. fold (h (n - 2)%nat) (h (n - 3)%nat) in K2. rewrite !HH in *. lra.
    + intros i Hi. pose proof (forallb_seq _ _ i K1 ltac:(lia)) as H. apply andb_prop in H as [H1 H2].
      apply Qleb_true in H1, H2. rewrite Q2R_opp in H2. specialize (Row i Hi). rewrite !rget_Q, !HH in Row. rewrite !HH.
      pose proof (HP i ltac:(lia)) as P0. pose proof (HP (i + 1)%nat ltac:(lia)) as P1.
      unfold resid in H1, H2. rewrite Q2R_minus, !Q2R_plus, !Q2R_mult, Q2R_plus, Q2R_minus, !Q2R_div, !Q2R_minus, c2, c6 in H1, H2 by auto.
      fold (h i) (h (i + 1)%nat) in H1, H2. apply Rabs_le. split; lra.
  - pose proof (forallb_seq _ _ 0%nat K1 ltac:(lia)) as H. apply andb_prop in H as [H1 H2]. apply Qleb_true in H1, H2. rewrite Q2R_opp in H2. lra.
Qed.

Theorem bounds_sound lo hi : check_bounds xs ys ms rho lo hi = true ->
  forall t, X 0 <= t <= X (n - 1) -> Q2R lo < s t < Q2R hi.
Proof using CK LY SPL.
  intros B t Ht. destruct close as (M & Sp & AB & RP & N4). unfold check_bounds in B. apply andb_prop in B as [BY B]. rewrite forallb_forall in BY.
  assert (Hy : forall i, (i < n)%nat -> Q2R lo < Y i < Q2R hi).
  { intros i Hi. specialize (BY (qget ys i)). assert (I : In (qget ys i) ys) by (unfold qget; apply get_In; unfold n in Hi; lia).
    apply BY in I. apply andb_prop in I as [I1 I2]. apply Qltb_true in I1, I2. split; assumption. }
  destruct (piece_exists (map Q2R xs)) with (t := t) as (i & Hi & Hti).
  { rewrite map_length. exact N4. }
  { rewrite map_length, !rget_Q. exact Ht. }
  rewrite map_length in Hi. rewrite !rget_Q in Hti. fold (X i) (X (i + 1)%nat) in Hti. fold n in Hi.
  rewrite (Sp i t Hi Hti). pose proof (hq_pos i Hi) as P.
  set (u := (t - X i) / h i).
  assert (Hu : 0 <= u <= 1).
  { unfold u. rewrite X_next in Hti. split; [apply Rmult_le_pos; [lra|left; apply Rinv_0_lt_compat; auto]|].
    apply Rmult_le_reg_r with (h i); auto. unfold Rdiv. rewrite Rmult_assoc, Rinv_l, Rmult_1_r, Rmult_1_l by lra. lra. }
  assert (Et : t - X i = u * h i) by (unfold u; field; lra).
  pose proof (forallb_seq _ _ i B ltac:(unfold n in *; lia)) as F. cbv beta zeta in F.
  apply andb_prop in F as [F F4]. apply andb_prop in F as [F F3]. apply andb_prop in F as [F1 F2].
  apply Qltb_true in F1, F2, F3, F4.
  assert (c2 : Q2R 2 = 2) by (unfold Q2R; simpl; lra). assert (c6 : Q2R 6 = 6) by (unfold Q2R; simpl; lra).
  assert (c9 : Q2R 9 = 9) by (unfold Q2R; simpl; lra). assert (c18 : Q2R 18 = 18) by (unfold Q2R; simpl; lra).
  repeat (rewrite ?Q2R_minus, ?Q2R_plus, ?Q2R_mult, ?c2, ?c6, ?c9, ?c18 in F1). repeat (rewrite ?Q2R_minus, ?Q2R_plus, ?Q2R_mult, ?c2, ?c6, ?c9, ?c18 in F2).
  repeat (rewrite ?Q2R_minus, ?Q2R_plus, ?Q2R_mult, ?c2, ?c6, ?c9, ?c18 in F3). repeat (rewrite ?Q2R_minus, ?Q2R_plus, ?Q2R_mult, ?c2, ?c6, ?c9, ?c18 in F4).
  fold (h i) (Y i) (Y (i + 1)%nat) in F1, F2, F3, F4.
  pose proof (AB i ltac:(lia)) as A0. pose proof (AB (i + 1)%nat ltac:(lia)) as A1.
  assert (H2 : 0 <= h i * h i) by (apply Rmult_le_pos; lra).
  assert (T : forall z, - (9 * Q2R rho) <= z <= 9 * Q2R rho -> - (9 * (h i * h i) * Q2R rho) <= h i * h i * z <= 9 * (h i * h i) * Q2R rho).
  { intros z [Z1 Z2]. pose proof (Rmult_le_compat_l _ _ _ H2 Z1). pose proof (Rmult_le_compat_l _ _ _ H2 Z2). lra. }
  pose proof (T (2 * (M i - Q2R (qget ms i)) + (M (i + 1)%nat - Q2R (qget ms (i + 1)))) ltac:(lra)) as T1.
  pose proof (T ((M i - Q2R (qget ms i)) + 2 * (M (i + 1)%nat - Q2R (qget ms (i + 1)))) ltac:(lra)) as T2.
  set (b1 := (2 * Y i + Y (i + 1)%nat) / 3 - h i ^ 2 * (2 * M i + M (i + 1)%nat) / 18).
  set (b2 := (Y i + 2 * Y (i + 1)%nat) / 3 - h i ^ 2 * (M i + 2 * M (i + 1)%nat) / 18).
  replace (Y i + ((Y (i + 1)%nat - Y i) / h i - h i * (2 * M i + M (i + 1)%nat) / 6) * (t - X i)
         + M i / 2 * (t - X i) ^ 2 + (M (i + 1)%nat - M i) / (6 * h i) * (t - X i) ^ 3)
    with (Y i * (1 - u) ^ 3 + 3 * b1 * u * (1 - u) ^ 2 + 3 * b2 * u ^ 2 * (1 - u) + Y (i + 1)%nat * u ^ 3).
  2:{ rewrite Et. unfold b1, b2. field. lra. }
  assert (HB : Q2R lo < b1 < Q2R hi /\ Q2R lo < b2 < Q2R hi) by (unfold b1, b2; simpl pow; lra).
  destruct HB as [HB1 HB2]. pose proof (Hy i ltac:(lia)) as Y0. pose proof (Hy (i + 1)%nat ltac:(lia)) as Y1.
  split.
  - pose proof (bernstein_pos (Y i - Q2R lo) (Y (i + 1)%nat - Q2R lo) (b1 - Q2R lo) (b2 - Q2R lo) u ltac:(lra) ltac:(lra) ltac:(lra) ltac:(lra) Hu) as Q.
    replace ((Y i - Q2R lo) * (1 - u) ^ 3 + 3 * (b1 - Q2R lo) * u * (1 - u) ^ 2 + 3 * (b2 - Q2R lo) * u ^ 2 * (1 - u) + (Y (i + 1)%nat - Q2R lo) * u ^ 3)
      with (Y i * (1 - u) ^ 3 + 3 * b1 * u * (1 - u) ^ 2 + 3 * b2 * u ^ 2 * (1 - u) + Y (i + 1)%nat * u ^ 3 - Q2R lo) in Q by ring. lra.
  - pose proof (bernstein_pos (Q2R hi - Y i) (Q2R hi - Y (i + 1)%nat) (Q2R hi - b1) (Q2R hi - b2) u ltac:(lra) ltac:(lra) ltac:(lra) ltac:(lra) Hu) as Q.
    replace ((Q2R hi - Y i) * (1 - u) ^ 3 + 3 * (Q2R hi - b1) * u * (1 - u) ^ 2 + 3 * (Q2R hi - b2) * u ^ 2 * (1 - u) + (Q2R hi - Y (i + 1)%nat) * u ^ 3)
      with (Q2R hi - (Y i * (1 - u) ^ 3 + 3 * b1 * u * (1 - u) ^ 2 + 3 * b2 * u ^ 2 * (1 - u) + Y (i + 1)%nat * u ^ 3)) in Q by ring. lra.
Qed.

Theorem mono_sound sg k : sg = 1%Z \/ sg = (-1)%Z -> check_mono xs ys ms rho sg k = true -> (k < n)%nat ->
  forall t t', X k <= t -> t < t' -> t' <= X (n - 1) -> IZR sg * s t < IZR sg * s t'.
Proof using CK LY SPL.
  intros HS B HK. destruct close as (M & Sp & AB & RP & N4).
  apply (glue X (fun t => IZR sg * s t) k (n - 1)); [| |lia].
  - intros i Hi. rewrite X_next. pose proof (hq_pos i ltac:(lia)). lra.
  - intros i Hi u v Hu Huv Hv. assert (HI : (i + 1 < n)%nat) by lia. cbv beta. rewrite (Sp i u HI), (Sp i v HI) by lra.
    pose proof (hq_pos i HI) as P. pose proof (AB i ltac:(lia)) as A0. pose proof (AB (i + 1)%nat ltac:(lia)) as A1.
    assert (F : In i (seq k (List.length xs - 1 - k))) by (apply in_seq; unfold n in *; lia).
    unfold check_mono in B. rewrite forallb_forall in B. specialize (B i F). cbv beta zeta in B. apply andb_prop in B as [B B3]. apply andb_prop in B as [B1 B2].
    apply Qltb_true in B1, B2, B3. unfold slope in B1, B2, B3.
    assert (N0 : ~ (hq xs i == 0)%Q) by (intros E; apply Qeq_eqR in E; fold (h i) in E; unfold Q2R in E; simpl in E; lra).
    assert (c2 : Q2R 2 = 2) by (unfold Q2R; simpl; lra). assert (c6 : Q2R 6 = 6) by (unfold Q2R; simpl; lra). assert (c9 : Q2R 9 = 9) by (unfold Q2R; simpl; lra).
    assert (cs : Q2R (inject_Z sg) = IZR sg) by (unfold Q2R; simpl; lra).
    repeat (rewrite ?Q2R_minus, ?Q2R_plus, ?Q2R_mult, ?Q2R_div, ?c2, ?c6, ?c9, ?cs in B1 by auto).
    repeat (rewrite ?Q2R_minus, ?Q2R_plus, ?Q2R_mult, ?Q2R_div, ?c2, ?c6, ?c9, ?cs in B2 by auto).
    repeat (rewrite ?Q2R_minus, ?Q2R_plus, ?Q2R_mult, ?Q2R_div, ?c2, ?c6, ?c9, ?cs in B3 by auto).
    fold (h i) (Y i) (Y (i + 1)%nat) in B1, B2, B3.
    rewrite X_next in Hv. set (sl := (Y (i + 1)%nat - Y i) / h i) in *. set (m0 := Q2R (qget ms i)) in *. set (m1 := Q2R (qget ms (i + 1))) in *. set (M0 := M i) in *. set (M1 := M (i + 1)%nat) in *.
    set (hi := h i) in *.
    assert (T : forall z e, - e <= z <= e -> - (hi * e) <= hi * z <= hi * e) by (intros z e [Z1 Z2]; pose proof (Rmult_le_compat_l hi _ _ ltac:(lra) Z1); pose proof (Rmult_le_compat_l hi _ _ ltac:(lra) Z2); lra).
    pose proof (T (2 * (M0 - m0) + (M1 - m1)) (9 * Q2R rho) ltac:(lra)) as T1.
    pose proof (T ((M0 - m0) - (M1 - m1)) (6 * Q2R rho) ltac:(lra)) as T2.
    pose proof (T ((M0 - m0) + 2 * (M1 - m1)) (9 * Q2R rho) ltac:(lra)) as T3.
    assert (EQ : forall w, IZR sg * (Y i + (sl - hi * (2 * M0 + M1) / 6) * (w - X i) + M0 / 2 * (w - X i) ^ 2 + (M1 - M0) / (6 * hi) * (w - X i) ^ 3) =
      IZR sg * Y i + IZR sg * (sl - hi * (2 * M0 + M1) / 6) * (w - X i) + IZR sg * (M0 / 2) * (w - X i) ^ 2 + IZR sg * ((M1 - M0) / (6 * hi)) * (w - X i) ^ 3) by (intros; ring).
    rewrite !EQ. apply (bernstein_increasing _ _ _ _ hi); [lra|lra|lra| | |].
    + destruct HS as [->| ->]; lra.
    + replace (IZR sg * (sl - hi * (2 * M0 + M1) / 6) + IZR sg * (M0 / 2) * hi) with (IZR sg * (sl + hi * (M0 - M1) / 6)) by field. destruct HS as [->| ->]; lra.
    + replace (IZR sg * (sl - hi * (2 * M0 + M1) / 6) + 2 * (IZR sg * (M0 / 2)) * hi + 3 * (IZR sg * ((M1 - M0) / (6 * hi))) * hi ^ 2) with (IZR sg * (sl + hi * (M0 + 2 * M1) / 6)) by (field; lra). destruct HS as [->| ->]; lra.
Qed.
End Sound.

(** ** the ITU tables *)
Definition column_ok (c : list (Z * nat) * list (Z * nat) * list Q) (lo hi : Q) (sg : Z) (k : nat) (from : Q) : bool :=
  let xs := map decQ (fst (fst c)) in let ys := map decQ (snd (fst c)) in let ms := snd c in
  check_bounds xs ys ms rho0 lo hi && check_mono xs ys ms rho0 sg k
  && (List.length ys =? List.length xs)%nat && (k <? List.length xs)%nat && Qle_bool (qget xs k) from.

Definition cert (i : nat) := nth i certs ([], [], []).
Definition lo_a : Q := (1 # 50000)%Q.
Definition hi_a : Q := (137 # 100)%Q.
Definition lo_b : Q := (67 # 100)%Q.
Definition hi_b : Q := (171 # 100)%Q.

Lemma columns_ok :
  column_ok (cert 0) lo_a hi_a 1 8 5 && column_ok (cert 1) lo_a hi_a 1 8 5
  && column_ok (cert 2) lo_b hi_b (-1) 10 6 && column_ok (cert 3) lo_b hi_b (-1) 10 6
  && column_ok (cert 4) lo_a hi_a 1 0 5 && column_ok (cert 5) lo_a hi_a 1 1 5
  && column_ok (cert 6) lo_b hi_b (-1) 5 8 && column_ok (cert 7) lo_b hi_b (-1) 5 8 = true.
Proof. vm_compute. reflexivity. Qed.

Lemma column_sound i lo hi sg k from s : (i < 8)%nat -> column_ok (cert i) lo hi sg k from = true -> sg = 1%Z \/ sg = (-1)%Z ->
  notaknot_spline (map dec (fst (fst (cert i)))) (map dec (snd (fst (cert i)))) s ->
  (forall f, 1 <= f <= 100 -> Q2R lo < s f < Q2R hi) /\
  (forall f g, Q2R from <= f -> f < g -> g <= 100 -> IZR sg * s f < IZR sg * s g).
Proof.
  intros Hi K HS Hs. set (c := cert i) in *. assert (HC : In c certs) by (apply nth_In; exact Hi).
  pose proof certs_ok as G. rewrite forallb_forall in G. specialize (G c HC).
  apply andb_prop in G as [G G2]. apply andb_prop in G as [G G1]. apply Qeq_bool_eq in G1, G2. apply Qeq_eqR in G1, G2.
  unfold column_ok in K. cbv zeta in K. rewrite <- !map_dec in Hs.
  set (xs := map decQ (fst (fst c))) in *. set (ys := map decQ (snd (fst c))) in *. set (ms := snd c) in *.
  apply andb_prop in K as [K K5]. apply andb_prop in K as [K K4]. apply andb_prop in K as [K K3]. apply andb_prop in K as [K1 K2].
  apply Nat.eqb_eq in K3. apply Nat.ltb_lt in K4. apply Qleb_true in K5.
  assert (c1 : Q2R 1 = 1) by (unfold Q2R; simpl; lra). assert (c100 : Q2R 100 = 100) by (unfold Q2R; simpl; lra).
  split.
  - intros f Hf. apply (bounds_sound xs ys ms rho0 s G K3 Hs lo hi K1). rewrite G1, G2. lra.
  - intros f g Hf Hfg Hg. apply (mono_sound xs ys ms rho0 s G K3 Hs sg k HS K2 K4); auto; [lra|rewrite G2; lra].
Qed.

(** GHz from which the exponents of a table fall *)
Definition falls_from (t : list (list (Z * nat))) : R := if (List.length (get [] t 0) =? 21)%nat then 8 else 6.

Theorem itu_columns t k s : itu_table t -> (1 <= k <= 4)%nat ->
  notaknot_spline (map dec (get [] t 0)) (map dec (get [] t k)) s ->
  ((k <= 2)%nat -> (forall f, 1 <= f <= 100 -> 1 / 50000 < s f < 137 / 100) /\ (forall f g, 5 <= f -> f < g -> g <= 100 -> s f < s g)) /\
  ((3 <= k)%nat -> (forall f, 1 <= f <= 100 -> 67 / 100 < s f < 171 / 100) /\ (forall f g, falls_from t <= f -> f < g -> g <= 100 -> s g < s f)).
Proof.
  intros Ht Hk Hs. pose proof columns_ok as K.
  apply andb_prop in K as [K K7]. apply andb_prop in K as [K K6]. apply andb_prop in K as [K K5]. apply andb_prop in K as [K K4].
  apply andb_prop in K as [K K3]. apply andb_prop in K as [K K2]. apply andb_prop in K as [K0 K1].
  assert (q : Q2R lo_a = 1 / 50000 /\ Q2R hi_a = 137 / 100 /\ Q2R lo_b = 67 / 100 /\ Q2R hi_b = 171 / 100 /\ Q2R 5 = 5 /\ Q2R 6 = 6 /\ Q2R 8 = 8)
    by (unfold Q2R, lo_a, hi_a, lo_b, hi_b; simpl; repeat split; lra).
  destruct q as (q1 & q2 & q3 & q4 & q5 & q6 & q8).
  destruct Ht as [->| ->];
  (assert (k = 1 \/ k = 2 \/ k = 3 \/ k = 4)%nat as [->|[->|[->| ->]]] by lia);
  match type of Hs with notaknot_spline (map dec ?a) (map dec ?b) _ =>
    let a' := eval cbv [get nth ITU_table_2003 ITU_table_2005] in a in
    let b' := eval cbv [get nth ITU_table_2003 ITU_table_2005] in b in
    change a with a' in Hs; change b with b' in Hs end;
  [pose proof (column_sound 4 _ _ _ _ _ s ltac:(lia) K4 ltac:(auto) Hs) as [B G]|pose proof (column_sound 5 _ _ _ _ _ s ltac:(lia) K5 ltac:(auto) Hs) as [B G]
  |pose proof (column_sound 6 _ _ _ _ _ s ltac:(lia) K6 ltac:(auto) Hs) as [B G]|pose proof (column_sound 7 _ _ _ _ _ s ltac:(lia) K7 ltac:(auto) Hs) as [B G]
  |pose proof (column_sound 0 _ _ _ _ _ s ltac:(lia) K0 ltac:(auto) Hs) as [B G]|pose proof (column_sound 1 _ _ _ _ _ s ltac:(lia) K1 ltac:(auto) Hs) as [B G]
  |pose proof (column_sound 2 _ _ _ _ _ s ltac:(lia) K2 ltac:(auto) Hs) as [B G]|pose proof (column_sound 3 _ _ _ _ _ s ltac:(lia) K3 ltac:(auto) Hs) as [B G]];
  rewrite ?q1, ?q2, ?q3, ?q4, ?q5, ?q6, ?q8 in *; (split; intros; [|]); try lia; (split; [exact B|]);
  (intros f g Hf Hfg Hg; specialize (G f g Hf Hfg Hg); lra).
Qed.
