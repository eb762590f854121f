(** * Baselines: dependence on the signal level *)
From Coq Require Import List ZArith Bool Reals Lia Lra.
From Flocq Require Import Core.Raux.
From Verif Require Import Base Num NumList Baseline_model Baseline_spec Baseline_proofs Baseline_proofs2 BaselineSym_spec.
Import ListNotations.
Local Open Scope nat_scope.

Section Any.
Context {O : numops}.

(** ** constant *)
Lemma constant_ignores (trsl1 trsl2 wet : list O) n :
  length trsl1 = length trsl2 -> length wet = length trsl1 ->
  (forall i, i < length trsl1 -> i < n \/ ~ flagged_wet wet i -> get n_nan trsl1 i = get n_nan trsl2 i) ->
  baseline_constant trsl1 wet n = baseline_constant trsl2 wet n.
Proof.
  intros HL HW H.
  destruct (baseline_constant trsl1 wet n) as [b1|e1] eqn:E1.
  2: { unfold baseline_constant in *. rewrite <- HL. destruct (Nat.ltb _ _); auto. destruct (Nat.eqb _ _); auto. discriminate. }
  destruct (baseline_constant trsl2 wet n) as [b2|e2] eqn:E2.
  2: { unfold baseline_constant in *. rewrite <- HL in E2. destruct (Nat.ltb _ _); try discriminate. destruct (Nat.eqb _ _); discriminate. }
  f_equal. destruct (constant_rec _ _ _ _ E1) as [L1 R1]. destruct (constant_rec _ _ _ _ E2) as [L2 R2].
  pose proof (baseline_constant_ok _ _ _ _ E1) as (Hn & _ & _).
  apply get_ext with (d := n_nan); [congruence|]. rewrite L1.
  intros i. induction i as [i IH] using lt_wf_ind. intros Hi.
  destruct (R1 i Hi) as [A1 A2]. destruct (R2 i ltac:(lia)) as [B1 B2]. unfold nget in *.
  destruct (le_lt_dec n i) as [Ge|Lt]; [|rewrite A1, B1 by auto; apply H; auto].
  rewrite A2, B2 by auto. destruct (get false (map n_truthy wet) i) eqn:W.
  - destruct (get false (map n_truthy wet) (i - 1)); [apply IH; lia|].
    f_equal. apply slice_ext with (d := n_nan); [congruence|]. intros j Hj Hj'. apply IH; lia.
  - apply H; auto. right. apply truthy_flag_false; auto. lia.
Qed.

Lemma constant_idempotent (trsl wet : list O) n b :
  length wet = length trsl -> baseline_constant trsl wet n = Ok b -> baseline_constant b wet n = Ok b.
Proof.
  intros HW E. rewrite <- E. destruct (constant_dry _ _ _ _ E) as [L D].
  apply constant_ignores; [auto|congruence|]. intros i Hi H. apply D; auto. congruence.
Qed.

(** ** linear: every step has a shape that depends on the flags only *)
Definition in_run (ign : bool) (wet : list O) n j d e :=
  completed ign wet n d e /\ d <= j <= e /\
  forall rsl b, length rsl = n -> baseline_linear rsl wet ign = Ok b -> nget b j = runval rsl wet ign d e j.
Definition alone (ign : bool) (wet : list O) n j :=
  state ign wet j = false /\
  forall rsl b, length rsl = n -> baseline_linear rsl wet ign = Ok b -> nget b j = nget rsl j.
Definition at_end (ign : bool) (wet : list O) n j :=
  forall rsl b, length rsl = n -> baseline_linear rsl wet ign = Ok b -> nget b j = (zero : O).

Lemma linear_cases ign (wet : list O) n j : j < n ->
  (exists d e, in_run ign wet n j d e) \/ alone ign wet n j \/ at_end ign wet n j.
Proof.
  intros Hj. pose proof (next_dry (repeat (n_nan : O) n) wet ign (n - j) j) as ND.
  rewrite repeat_length in ND. specialize (ND ltac:(lia) ltac:(lia)).
  destruct (state ign wet j) eqn:Sj.
  - assert (1 <= j) by (destruct j; [discriminate|lia]).
    destruct (prev_dry wet ign j) as (d & D1 & D2 & D3); auto.
    assert (B : forall i, d < i <= j -> state ign wet i = true)
      by (intros i Hi; destruct (Nat.eq_dec i j) as [->|]; auto; apply D3; lia).
    destruct ND as [A|(e & A1 & A2 & A3)].
    + right; right. intros rsl b L E. apply (linear_trailing rsl wet ign b d j E); rewrite L; try lia.
      intros i Hi. destruct (le_lt_dec i j); [apply B|apply A]; lia.
    + left. exists d, e. assert (C : completed ign wet n d e).
      { split; [lia|split; [lia|split; [auto|split; [auto|]]]]. intros i Hi. destruct (le_lt_dec i j); [apply B|apply A3]; lia. }
      split; [exact C|]. split; [lia|]. intros rsl b L E. apply linear_run; auto; [rewrite L; auto|lia].
  - assert (NX : (S j = n \/ state ign wet (S j) = false \/ (forall i, j < i < n -> state ign wet i = true)) \/
                 exists e, completed ign wet n j e).
    { destruct ND as [A|(e & A1 & A2 & A3)]; [left; right; right; intros; apply A; lia|].
      destruct (Nat.eq_dec e (S j)) as [->|]; [left; auto|]. right. exists e. repeat split; auto; lia. }
    destruct NX as [NX|(e & C)].
    + destruct (Nat.eq_dec j 0) as [->|NZ].
      { right; left. split; auto. intros rsl b L E. rewrite <- L in *. eapply linear_iso; eauto. }
      destruct (prev_dry wet ign j) as (d & D1 & D2 & D3); [lia|].
      destruct (Nat.eq_dec d (j - 1)) as [->|].
      { right; left. split; auto. intros rsl b L E. rewrite <- L in *. eapply linear_iso; eauto. }
      assert (C : completed ign wet n d j) by (repeat split; auto; lia).
      left. exists d, j. split; [exact C|]. split; [lia|]. intros rsl b L E. rewrite <- L in *. apply linear_run_end; auto.
    + left. exists j, e. pose proof C as (C1 & _). split; [exact C|]. split; [lia|].
      intros rsl b L E. rewrite <- L in *. apply linear_run; auto. lia.
Qed.

Lemma linear_length (rsl wet : list O) ign b : baseline_linear rsl wet ign = Ok b -> length b = length rsl.
Proof. intros E. destruct (linear_inv _ _ _ _ E) as (s & -> & I). apply (I_len _ _ _ _ _ I). Qed.

Lemma linear_err (rsl1 rsl2 wet : list O) ign e :
  length rsl1 = length rsl2 -> length wet = length rsl1 ->
  baseline_linear rsl1 wet ign = Err e -> baseline_linear rsl2 wet ign = Err e.
Proof.
  intros HL HW E. destruct (Nat.eq_dec (length rsl1) 0) as [Z|NZ].
  - unfold baseline_linear in *. rewrite <- HL, Z in *. exact E.
  - destruct (linear_never_raises rsl1 wet ign) as [b Eb]; try lia. congruence.
Qed.

Lemma linear_ignores (rsl1 rsl2 wet : list O) ign :
  length rsl1 = length rsl2 -> length wet = length rsl1 ->
  (forall i, i < length rsl1 -> state ign wet i = false -> get n_nan rsl1 i = get n_nan rsl2 i) ->
  baseline_linear rsl1 wet ign = baseline_linear rsl2 wet ign.
Proof.
  intros HL HW H. destruct (baseline_linear rsl1 wet ign) as [b1|e1] eqn:E1.
  2: { symmetry. apply (linear_err rsl1); auto. }
  destruct (baseline_linear rsl2 wet ign) as [b2|e2] eqn:E2.
  2: { apply (linear_err rsl2 rsl1) in E2; try congruence. }
  f_equal. pose proof (linear_length _ _ _ _ E1) as L1. pose proof (linear_length _ _ _ _ E2) as L2.
  apply get_ext with (d := n_nan); [congruence|]. rewrite L1. intros j Hj.
  change (nget b1 j = nget b2 j).
  destruct (linear_cases ign wet (length rsl1) j Hj) as [(d & e & C & J & Q)|[(A & Q)|Q]].
  - rewrite (Q rsl1 b1), (Q rsl2 b2) by auto. destruct C as (C1 & C2 & C3 & C4 & _).
    unfold runval, nget. rewrite (H d), (H e) by (auto; lia). reflexivity.
  - rewrite (Q rsl1 b1), (Q rsl2 b2) by auto. apply H; auto.
  - rewrite (Q rsl1 b1), (Q rsl2 b2) by auto. reflexivity.
Qed.
End Any.

(** ** exact arithmetic *)
Lemma linear_idempotent (rsl : list R) (wet : list XR) ign b :
  length wet = length rsl ->
  (forall d e, completed ign wet (length rsl) d e -> ~ has_nan ign wet d e) ->
  baseline_linear (xs rsl : list XR) wet ign = Ok b -> baseline_linear b wet ign = Ok b.
Proof.
  intros HW HN E. rewrite <- E. pose proof (linear_length _ _ _ _ E) as L.
  assert (LX : length (xs rsl : list XR) = length rsl) by apply map_length.
  destruct (linear_ok _ _ _ _ E) as [H1 _]. rewrite LX in H1.
  destruct (linear_exact_final rsl wet ign H1 HW) as (b' & E' & _ & D). assert (b' = b) as -> by congruence.
  apply linear_ignores; [auto|congruence|]. rewrite L, LX. intros i Hi Hs.
  rewrite xs_get by auto. apply D; auto.
Qed.

(** ** three runs in parallel *)
Section Three.
Variable K : XR -> XR -> XR -> Prop.
Hypothesis K_zero : K (XFin 0) (XFin 0) (XFin 0).
Hypothesis K_add : forall x y z x' y' z', K x y z -> K x' y' z' -> K (xadd x x') (xadd y y') (xadd z z').
Hypothesis K_div : forall x y z k, (0 < k)%R -> K x y z -> K (xdiv x (XFin k)) (xdiv y (XFin k)) (xdiv z (XFin k)).

Lemma K_fold (l1 : list XR) : forall (l2 l3 : list XR) (x y z : XR), length l2 = length l1 -> length l3 = length l1 ->
  (forall j, j < length l1 -> K (nget l1 j) (nget l2 j) (nget l3 j)) -> K x y z ->
  K (fold_left n_add l1 x) (fold_left n_add l2 y) (fold_left n_add l3 z).
Proof.
  induction l1 as [|a1 l1 IH]; intros [|a2 l2] [|a3 l3] x y z E2 E3 H H0; try discriminate; auto.
  cbn [fold_left]. apply IH; [injection E2; auto|injection E3; auto| |].
  - intros j Hj. apply (H (Datatypes.S j)). apply (proj1 (Nat.succ_lt_mono _ _)). exact Hj.
  - apply K_add; auto. apply (H 0). apply Nat.lt_0_succ.
Qed.

Lemma K_mean (l1 l2 l3 : list XR) : 0 < length l1 -> length l2 = length l1 -> length l3 = length l1 ->
  (forall j, j < length l1 -> K (nget l1 j) (nget l2 j) (nget l3 j)) -> K (n_mean l1) (n_mean l2) (n_mean l3).
Proof.
  intros H0 E2 E3 H. unfold n_mean. rewrite E2, E3. apply K_div.
  - apply IZR_lt. lia.
  - apply K_fold; auto.
Qed.

Lemma constant_three (t1 t2 t3 wet b1 b2 b3 : list XR) n :
  length t2 = length t1 -> length t3 = length t1 ->
  baseline_constant t1 wet n = Ok b1 -> baseline_constant t2 wet n = Ok b2 -> baseline_constant t3 wet n = Ok b3 ->
  (forall i, i < length t1 -> K (nget t1 i) (nget t2 i) (nget t3 i)) ->
  forall i, i < length t1 -> K (nget b1 i) (nget b2 i) (nget b3 i).
Proof.
  intros HL2 HL3 E1 E2 E3 H.
  destruct (constant_rec _ _ _ _ E1) as [L1 R1]. destruct (constant_rec _ _ _ _ E2) as [L2 R2]. destruct (constant_rec _ _ _ _ E3) as [L3 R3].
  pose proof (baseline_constant_ok _ _ _ _ E1) as (Hn & _ & _).
  intros i. induction i as [i IH] using lt_wf_ind. intros Hi.
  destruct (R1 i Hi) as [A1 A2]. destruct (R2 i ltac:(lia)) as [B1 B2]. destruct (R3 i ltac:(lia)) as [C1 C2].
  destruct (le_lt_dec n i) as [Ge|Lt]; [|rewrite A1, B1, C1 by auto; apply H; auto].
  rewrite A2, B2, C2 by auto. destruct (get false (map n_truthy wet) i); [|apply H; auto].
  destruct (get false (map n_truthy wet) (i - 1)); [apply IH; lia|].
  apply K_mean; rewrite ?slice_length by lia; try lia.
  intros j Hj. unfold nget in *. rewrite !get_slice by lia. apply IH; lia.
Qed.
End Three.

Definition Kmix (a c : R) (x y z : XR) : Prop := exists r s, x = XFin r /\ y = XFin s /\ z = XFin (a * r + c * s).
Definition Kord (x y z : XR) : Prop := exists r s, x = XFin r /\ y = XFin s /\ (r <= s)%R.

Lemma Kmix_zero a c : Kmix a c (XFin 0) (XFin 0) (XFin 0).
Proof. exists 0%R, 0%R. repeat split. f_equal. ring. Qed.
Lemma Kmix_add a c x y z x' y' z' : Kmix a c x y z -> Kmix a c x' y' z' -> Kmix a c (xadd x x') (xadd y y') (xadd z z').
Proof. intros (r & s & -> & -> & ->) (r' & s' & -> & -> & ->). exists (r + r')%R, (s + s')%R. repeat split. simpl. f_equal. ring. Qed.
Lemma xdiv_fin_pos r k : (0 < k)%R -> xdiv (XFin r) (XFin k) = XFin (r / k).
Proof. intros. simpl. rewrite Req_bool_false by lra. reflexivity. Qed.
Lemma Kmix_div a c x y z k : (0 < k)%R -> Kmix a c x y z -> Kmix a c (xdiv x (XFin k)) (xdiv y (XFin k)) (xdiv z (XFin k)).
Proof. intros Hk (r & s & -> & -> & ->). rewrite !xdiv_fin_pos by auto. exists (r / k)%R, (s / k)%R. repeat split. f_equal. field. lra. Qed.
Lemma Kord_zero : Kord (XFin 0) (XFin 0) (XFin 0).
Proof. exists 0%R, 0%R. repeat split. lra. Qed.
Lemma Kord_add x y z x' y' z' : Kord x y z -> Kord x' y' z' -> Kord (xadd x x') (xadd y y') (xadd z z').
Proof. intros (r & s & -> & -> & ?) (r' & s' & -> & -> & ?). exists (r + r')%R, (s + s')%R. repeat split. lra. Qed.
Lemma Kord_div x y z k : (0 < k)%R -> Kord x y z -> Kord (xdiv x (XFin k)) (xdiv y (XFin k)) (xdiv z (XFin k)).
Proof.
  intros Hk (r & s & -> & -> & H). rewrite !xdiv_fin_pos by auto. exists (r / k)%R, (s / k)%R. repeat split.
  apply Rmult_le_compat_r; auto. left. apply Rinv_0_lt_compat; auto.
Qed.

Notation mixR a c := (map2 (fun x y : R => (a * x + c * y)%R)).

Lemma mix_get a c (l1 l2 : list R) i : length l2 = length l1 -> i < length l1 ->
  get 0%R (mixR a c l1 l2) i = (a * get 0%R l1 i + c * get 0%R l2 i)%R.
Proof. intros. apply (get_map2 (fun x y : R => (a * x + c * y)%R)); auto. Qed.

Lemma constant_linear a c (t1 t2 : list R) (wet : list XR) n b1 b2 :
  length t2 = length t1 ->
  baseline_constant (xs t1 : list XR) wet n = Ok b1 -> baseline_constant (xs t2 : list XR) wet n = Ok b2 ->
  baseline_constant (xs (mixR a c t1 t2) : list XR) wet n = Ok (map2 (mixed a c) b1 b2).
Proof.
  intros HL E1 E2.
  assert (X1 : length (xs t1 : list XR) = length t1) by apply map_length.
  assert (X2 : length (xs t2 : list XR) = length t1) by (unfold xs; rewrite map_length; auto).
  assert (X3 : length (xs (mixR a c t1 t2) : list XR) = length t1) by (unfold xs; rewrite map_length, map2_length; auto).
  pose proof (baseline_constant_ok _ _ _ _ E1) as (Hn & Hw & _).
  destruct (baseline_constant (xs (mixR a c t1 t2) : list XR) wet n) as [b3|e] eqn:E3.
  2: { unfold baseline_constant in E1, E3. rewrite X3 in E3. rewrite X1 in E1. destruct (Nat.ltb _ _); try discriminate. destruct (Nat.eqb _ _); discriminate. }
  destruct (constant_rec _ _ _ _ E1) as [L1 _]. destruct (constant_rec _ _ _ _ E2) as [L2 _]. destruct (constant_rec _ _ _ _ E3) as [L3 _].
  f_equal. apply get_ext with (d := (n_nan : XR)); [rewrite map2_length; lia|]. intros i Hi.
  rewrite get_map2 with (da := (n_nan : XR)) (db := (n_nan : XR)) by lia.
  destruct (constant_three (Kmix a c) (Kmix_zero a c) (Kmix_add a c) (Kmix_div a c) _ _ _ _ _ _ _ n
     (eq_trans X2 (eq_sym X1)) (eq_trans X3 (eq_sym X1)) E1 E2 E3) with (i := i) as (r & s & Q1 & Q2 & Q3); [|lia|].
  - rewrite X1. intros j Hj. unfold nget. rewrite !xs_get by (rewrite ?map2_length; lia). rewrite mix_get by auto.
    eexists _, _. split; [reflexivity|]. split; reflexivity.
  - unfold nget in *. rewrite Q1, Q2, Q3. reflexivity.
Qed.

Lemma constant_monotone (t1 t2 : list R) (wet : list XR) n b1 b2 :
  length t2 = length t1 -> (forall i, i < length t1 -> (get 0 t1 i <= get 0 t2 i)%R) ->
  baseline_constant (xs t1 : list XR) wet n = Ok b1 -> baseline_constant (xs t2 : list XR) wet n = Ok b2 ->
  forall i, i < length t1 -> ordered (get XNaN b1 i) (get XNaN b2 i).
Proof.
  intros HL H E1 E2 i Hi.
  assert (X1 : length (xs t1 : list XR) = length t1) by apply map_length.
  assert (X2 : length (xs t2 : list XR) = length t1) by (unfold xs; rewrite map_length; auto).
  right. destruct (constant_three Kord Kord_zero Kord_add Kord_div _ _ _ _ _ _ _ n (eq_trans X2 (eq_sym X1)) eq_refl E1 E2 E1)
    with (i := i) as (r & s & Q1 & Q2 & Q3); [|lia|exists r, s; auto].
  rewrite X1. intros j Hj. unfold nget. rewrite !xs_get by lia. eexists _, _. split; [reflexivity|]. split; [reflexivity|]. auto.
Qed.

(** value inside a run *)
Lemma run_real (rsl : list R) (wet : list XR) ign d e j :
  completed ign wet (length rsl) d e -> d <= j <= e ->
  runval (xs rsl : list XR) wet ign d e j =
  if dirty wet ign d e then (XNaN : XR)
  else XFin (get 0%R rsl d + INR (j - d) / INR (e - d) * (get 0%R rsl e - get 0%R rsl d))%R.
Proof.
  intros (C1 & C2 & _) Hj. unfold runval. destruct (dirty wet ign d e); auto.
  assert (P : (0 < INR (e - d))%R) by (apply lt_0_INR; lia).
  unfold n_linspace. destruct (e - d + 1) as [|[|k]] eqn:Ek; try lia.
  unfold nget. rewrite !xs_get by lia. replace (Datatypes.S (Datatypes.S k) - 1) with (e - d) by lia.
  destruct (Nat.eq_dec j e) as [->|NE].
  - unfold get at 1. rewrite app_nth2; rewrite map_length, seq_length; [|lia].
    rewrite Nat.sub_diag. cbn [nth]. f_equal. field. lra.
  - unfold get at 1. rewrite app_nth1 by (rewrite map_length, seq_length; lia).
    match goal with |- nth (j - d) (map ?f _) _ = _ => change (get (n_nan : XR) (map f (seq 0 (e - d))) (j - d) = 
      XFin (get 0%R rsl d + INR (j - d) / INR (e - d) * (get 0%R rsl e - get 0%R rsl d))%R) end.
    rewrite get_map_seq by lia.
    change (line_point (O := XR) (XFin (get 0%R rsl d)) (XFin (get 0%R rsl e)) (e - d) (j - d) = 
      XFin (get 0%R rsl d + INR (j - d) / INR (e - d) * (get 0%R rsl e - get 0%R rsl d))%R).
    rewrite line_point_exact by lia. f_equal. field. lra.
Qed.

Lemma linear_linear a c (t1 t2 : list R) (wet : list XR) ign b1 b2 :
  length t2 = length t1 -> length wet = length t1 ->
  baseline_linear (xs t1 : list XR) wet ign = Ok b1 -> baseline_linear (xs t2 : list XR) wet ign = Ok b2 ->
  baseline_linear (xs (mixR a c t1 t2) : list XR) wet ign = Ok (map2 (mixed a c) b1 b2).
Proof.
  intros HL HW E1 E2.
  assert (X1 : length (xs t1 : list XR) = length t1) by apply map_length.
  assert (X2 : length (xs t2 : list XR) = length t1) by (unfold xs; rewrite map_length; auto).
  assert (LM : length (mixR a c t1 t2) = length t1) by (rewrite map2_length; auto).
  assert (X3 : length (xs (mixR a c t1 t2) : list XR) = length t1) by (unfold xs; rewrite map_length; auto).
  destruct (linear_ok _ _ _ _ E1) as [H1 _]. rewrite X1 in H1.
  destruct (linear_never_raises (xs (mixR a c t1 t2) : list XR) wet ign) as [b3 E3]; [rewrite X3; auto|congruence|].
  rewrite E3. pose proof (linear_length _ _ _ _ E1) as L1. pose proof (linear_length _ _ _ _ E2) as L2. pose proof (linear_length _ _ _ _ E3) as L3.
  f_equal. apply get_ext with (d := (n_nan : XR)); [rewrite map2_length; lia|]. intros j Hj.
  rewrite get_map2 with (da := (n_nan : XR)) (db := (n_nan : XR)) by lia.
  change (nget b3 j = mixed a c (nget b1 j) (nget b2 j)). assert (Hj' : j < length t1) by lia.
  destruct (linear_cases ign wet (length t1) j Hj') as [(d & e & C & J & Q)|[(A & Q)|Q]];
    rewrite (Q _ _ X1 E1), (Q _ _ X2 E2), (Q _ _ X3 E3).
  - rewrite !run_real by (rewrite ?HL, ?LM; auto). destruct (dirty wet ign d e); [reflexivity|].
    destruct C as (C1 & C2 & _). rewrite !mix_get by lia. refine (f_equal (XFin : R -> XR) _). ring.
  - unfold nget. rewrite !xs_get by lia. rewrite mix_get by lia. reflexivity.
  - refine (f_equal (XFin : R -> XR) _). ring.
Qed.

Lemma linear_monotone (t1 t2 : list R) (wet : list XR) ign b1 b2 :
  length t2 = length t1 -> length wet = length t1 -> (forall i, i < length t1 -> (get 0 t1 i <= get 0 t2 i)%R) ->
  baseline_linear (xs t1 : list XR) wet ign = Ok b1 -> baseline_linear (xs t2 : list XR) wet ign = Ok b2 ->
  forall i, i < length t1 -> ordered (get XNaN b1 i) (get XNaN b2 i).
Proof.
  intros HL HW H E1 E2 j Hj.
  assert (X1 : length (xs t1 : list XR) = length t1) by apply map_length.
  assert (X2 : length (xs t2 : list XR) = length t1) by (unfold xs; rewrite map_length; auto).
  change (ordered (nget b1 j) (nget b2 j)).
  destruct (linear_cases ign wet (length t1) j Hj) as [(d & e & C & J & Q)|[(A & Q)|Q]];
    rewrite (Q _ _ X1 E1), (Q _ _ X2 E2).
  - rewrite !run_real by (rewrite ?HL; auto). destruct (dirty wet ign d e); [left; auto|]. right. eexists _, _.
    split; [reflexivity|]. split; [reflexivity|]. destruct C as (C1 & C2 & _).
    pose proof (H d ltac:(lia)) as Hd. pose proof (H e ltac:(lia)) as He.
    assert (P : (0 < INR (e - d))%R) by (apply lt_0_INR; lia).
    assert (F : (0 <= INR (j - d) / INR (e - d) <= 1)%R).
    { split; [apply Rmult_le_pos; [apply pos_INR|left; apply Rinv_0_lt_compat; auto]|].
      apply Rmult_le_reg_r with (INR (e - d)); auto. unfold Rdiv. rewrite Rmult_assoc, Rinv_l, Rmult_1_l, Rmult_1_r by lra. apply le_INR; lia. }
    set (f := (INR (j - d) / INR (e - d))%R) in *. nra.
  - right. unfold nget. rewrite !xs_get by lia. eexists _, _. split; [reflexivity|]. split; [reflexivity|]. auto.
  - right. exists 0%R, 0%R. repeat split. lra.
Qed.

(** ** time reversal *)
Lemma get_rev {A} (d : A) l i : i < length l -> get d (rev l) i = get d l (length l - 1 - i).
Proof. intros. unfold get. rewrite rev_nth by auto. f_equal. lia. Qed.

Section Reverse.
Variables (rsl : list R) (wet : list XR) (ign : bool).
Hypothesis HW : length wet = length rsl.
Hypothesis NN : forall i, i < length rsl -> n_isnan (get n_nan wet i) = false.
Hypothesis First : ~ flagged_wet wet 0.
Hypothesis Last : ~ flagged_wet wet (length rsl - 1).
Notation n := (length rsl).

Lemma state_flag (w : list XR) i : length w = n -> (forall i, i < n -> n_isnan (get n_nan w i) = false) -> ~ flagged_wet w 0 ->
  i < n -> state ign w i = true <-> flagged_wet w i.
Proof.
  intros HL N F Hi. destruct i; simpl; [split; [discriminate|contradiction]|].
  rewrite N by auto. unfold flagged_wet. rewrite negb_true_iff. reflexivity.
Qed.

Lemma state_rev i : i < n -> state ign (rev wet) i = state ign wet (n - 1 - i).
Proof.
  intros Hi. apply eq_iff_eq_true. rewrite state_flag; [|rewrite rev_length; auto| | |auto].
  - rewrite state_flag by (auto; lia). unfold flagged_wet. rewrite get_rev by lia. rewrite HW. reflexivity.
  - intros k Hk. rewrite get_rev by lia. rewrite HW. apply NN. lia.
  - unfold flagged_wet in *. rewrite get_rev by lia. rewrite HW, Nat.sub_0_r. auto.
Qed.

Lemma no_nan d e : completed ign wet n d e -> ~ has_nan ign wet d e.
Proof. intros (_ & C & _) (_ & k & Hk & E). rewrite NN in E by lia. discriminate. Qed.

Lemma completed_rev d e : completed ign wet n d e -> completed ign (rev wet) n (n - 1 - e) (n - 1 - d).
Proof.
  intros (C1 & C2 & C3 & C4 & C5). split; [lia|]. split; [lia|]. rewrite !state_rev by lia.
  replace (n - 1 - (n - 1 - e)) with e by lia. replace (n - 1 - (n - 1 - d)) with d by lia. split; [auto|]. split; [auto|].
  intros j Hj. rewrite state_rev by lia. apply C5. lia.
Qed.
End Reverse.

Lemma linear_reverse (rsl : list R) (wet : list XR) ign :
  1 <= length rsl -> length wet = length rsl ->
  (forall i, i < length rsl -> n_isnan (get n_nan wet i) = false) ->
  ~ flagged_wet wet 0 -> ~ flagged_wet wet (length rsl - 1) ->
  exists b, baseline_linear (xs rsl : list XR) wet ign = Ok b /\
            baseline_linear (xs (rev rsl) : list XR) (rev wet) ign = Ok (rev b).
Proof.
  intros H1 HW NN F La.
  assert (HW' : length (rev wet) = length (rev rsl)) by (rewrite !rev_length; auto).
  destruct (linear_exact_final rsl wet ign H1 HW) as (b & E & Run & Dry).
  destruct (linear_exact_final (rev rsl) (rev wet) ign) as (b' & E' & Run' & Dry'); [rewrite rev_length; auto|auto|].
  exists b. split; auto. rewrite E'. f_equal.
  pose proof (linear_length _ _ _ _ E) as L. pose proof (linear_length _ _ _ _ E') as L'.
  unfold xs in L, L'. rewrite map_length in L, L'. rewrite rev_length in L', Run', Dry'.
  assert (NN' : forall i, i < length (rev rsl) -> n_isnan (get n_nan (rev wet) i) = false).
  { intros i Hi. rewrite rev_length in Hi. rewrite get_rev by lia. rewrite HW. apply NN. lia. }
  assert (NO : forall d e, completed ign wet (length rsl) d e -> ~ has_nan ign wet d e) by (intros d e; apply no_nan; auto).
  assert (NO' : forall d e, completed ign (rev wet) (length rsl) d e -> ~ has_nan ign (rev wet) d e).
  { intros d e C. apply (no_nan (rev rsl)); auto. rewrite rev_length; auto. }
  apply get_ext with (d := XNaN); [rewrite rev_length; exact (eq_trans L' (eq_sym L))|]. intros i Hi. change (length b') with (length (b' : list XR)) in Hi. rewrite L' in Hi.
  assert (Hi' : i < length b) by (rewrite L; exact Hi).
  transitivity (get XNaN b (length rsl - 1 - i)); [|rewrite <- L; symmetry; exact (get_rev XNaN b i Hi')].
  set (j := length rsl - 1 - i). assert (Hj : j < length rsl) by lia.
  assert (SR : forall k, k < length rsl -> state ign (rev wet) k = state ign wet (length rsl - 1 - k)) by (intros; apply state_rev; auto).
  destruct (state ign wet j) eqn:Sj.
  - (* inside a wet period *)
    assert (1 <= j) by (destruct j; [discriminate|lia]).
    destruct (prev_dry wet ign j) as (d & D1 & D2 & D3); auto.
    assert (SL : state ign wet (length rsl - 1) = false).
    { destruct (state ign wet (length rsl - 1)) eqn:Q; auto. exfalso. apply La. apply (state_flag rsl ign wet); auto. lia. }
    pose proof (next_dry (xs rsl : list XR) wet ign (length rsl - j) j) as ND. unfold xs in ND. rewrite map_length in ND.
    destruct ND as [A|(e & A1 & A2 & A3)]; [lia|lia| |].
    + destruct (Nat.eq_dec j (length rsl - 1)) as [EQ|NE]; [rewrite <- EQ in SL; congruence|].
      rewrite (A (length rsl - 1)) in SL by lia. discriminate.
    + assert (C : completed ign wet (length rsl) d e).
      { split; [lia|split; [lia|split; [auto|split; [auto|]]]]. intros k Hk.
        destruct (Nat.eq_dec k j) as [->|]; auto. destruct (le_lt_dec k j); [apply D3|apply A3]; lia. }
      pose proof (completed_rev rsl wet ign HW NN F La d e C) as C'.
      destruct (Run d e j C (NO _ _ C)) as [Q _]; [lia|].
      destruct (Run' _ _ i C' (NO' _ _ C')) as [Q' _]; [lia|]. rewrite Q, Q'.
      refine (f_equal (XFin : R -> XR) _). rewrite !get_rev by lia.
      replace (length rsl - 1 - (length rsl - 1 - e)) with e by lia. replace (length rsl - 1 - (length rsl - 1 - d)) with d by lia.
      replace (length rsl - 1 - d - (length rsl - 1 - e)) with (e - d) by lia.
      replace (i - (length rsl - 1 - e)) with (e - j) by lia.
      assert (P : (0 < INR (e - d))%R) by (apply lt_0_INR; lia).
      replace (INR (e - j)) with (INR (e - d) - INR (j - d))%R by (rewrite <- minus_INR by lia; f_equal; lia). field. lra.
  - rewrite Dry by auto. rewrite Dry' by (auto; rewrite SR by lia; auto). f_equal. apply get_rev. lia.
Qed.
