From Coq Require Import List ZArith Bool Reals Lra Lia Arith.
From Flocq Require Import Core.
From Verif Require Import Base Num NumList Baseline_model Baseline_spec Baseline_proofs.
Import ListNotations.
Local Open Scope nat_scope.

Section Runs.
Context {O : numops}.
Variables (rsl wet : list O) (ign : bool).
Notation n := (length rsl).
Notation st_at := (state ign wet).

Lemma next_dry k e : e + k <= n -> 1 <= k ->
  (forall j, e < j < e + k -> st_at j = true) \/
  (exists e', e < e' < e + k /\ st_at e' = false /\ forall j, e < j < e' -> st_at j = true).
Proof.
  induction k; intros H1 H2; [lia|].
  destruct (Nat.eq_dec k 0).
  - left; intros; lia.
  - destruct IHk as [IH|(e' & A & B & C)]; try lia.
    + destruct (st_at (e + k)) eqn:E.
      * left. intros j Hj. destruct (Nat.eq_dec j (e + k)); [subst; auto|apply IH; lia].
      * right. exists (e + k). repeat split; auto; try lia.
    + right. exists e'. repeat split; auto; lia.
Qed.

Lemma prev_dry e : 1 <= e -> exists d, d < e /\ st_at d = false /\ forall j, d < j < e -> st_at j = true.
Proof.
  induction e; intros; [lia|]. destruct (Nat.eq_dec e 0).
  - subst. exists 0. repeat split; auto; intros; lia.
  - destruct IHe as (d & A & B & C); try lia. destruct (st_at e) eqn:E.
    + exists d. repeat split; auto. intros j Hj. destruct (Nat.eq_dec j e); [subst; auto|apply C; lia].
    + exists e. repeat split; auto; intros; lia.
Qed.

Lemma linear_dry b e :
  baseline_linear rsl wet ign = Ok b -> e < n -> st_at e = false ->
  (forall d, completed ign wet n d e -> ~ has_nan ign wet d e) ->
  (forall e', completed ign wet n e e' -> ~ has_nan ign wet e e') ->
  nget b e = nget rsl e \/
  (exists e', completed ign wet n e e' /\ nget b e = line_point (nget rsl e) (nget rsl e') (e' - e) 0).
Proof.
  intros H He Hs Hp Hn.
  assert (Nx : (Datatypes.S e = n \/ st_at (Datatypes.S e) = false \/ (forall j, e < j < n -> st_at j = true))
               \/ exists e', completed ign wet n e e').
  { destruct (next_dry (n - e) e) as [A|(e' & A & B & C)]; try lia.
    - left; right; right. intros; apply A; lia.
    - destruct (Nat.eq_dec e' (Datatypes.S e)) as [ED|ND].
      + subst; left; auto.
      + right. exists e'. repeat split; auto; lia. }
  destruct Nx as [Nx|(e' & C)].
  - left. destruct (Nat.eq_dec e 0) as [->|NE].
    + eapply linear_iso; eauto.
    + destruct (prev_dry e) as (d & A & B & C); [lia|].
      destruct (Nat.eq_dec d (e - 1)) as [ED|ND].
      * subst d. eapply linear_iso; eauto.
      * assert (Cd : completed ign wet n d e) by (repeat split; auto; lia).
        rewrite (linear_run_end rsl wet ign b d e H Cd Nx).
        rewrite runval_clean by (auto; lia). rewrite Nat.eqb_refl. auto.
  - right. exists e'. split; auto. pose proof C as (C1 & C2 & C3 & C4 & C5).
    rewrite (linear_run rsl wet ign b e e' e H C) by lia.
    rewrite runval_clean by (auto; lia).
    destruct (Nat.eqb_spec e e') as [ED|ND]; [lia|]. rewrite Nat.sub_diag. auto.
Qed.

Lemma linear_never_raises : 1 <= n -> length wet = n -> exists b, baseline_linear rsl wet ign = Ok b.
Proof.
  intros H1 H2. destruct (linear_final rsl wet ign) as (s & E & _); try lia. eauto.
Qed.
End Runs.

(** Ignoring NaN = forward filling the flags *)
Section Fill.
Context {O : numops} (S : numsem O).

Lemma fill_from_length (p : O) t : length (fill_from p t) = length t.
Proof. revert p; induction t; intros; simpl; auto. Qed.

Lemma fill_from_0 (p : O) t : t <> [] -> nget (fill_from p t) 0 = if n_isnan (nget t 0) then p else nget t 0.
Proof. destruct t; intros; [congruence|reflexivity]. Qed.

Lemma fill_from_S (t : list O) : forall p i, Datatypes.S i < length t ->
  nget (fill_from p t) (Datatypes.S i) =
    if n_isnan (nget t (Datatypes.S i)) then
      (if n_eqb (nget (fill_from p t) i) (n_ofZ 0) then n_ofZ 0 else n_ofZ 1)
    else nget t (Datatypes.S i).
Proof.
  induction t as [|w t IH]; intros p i Hi; [simpl in Hi; lia|].
  destruct t as [|w2 t]; [simpl in Hi; lia|].
  destruct i as [|i].
  - reflexivity.
  - specialize (IH (if n_eqb (if n_isnan w then p else w) (n_ofZ 0) then n_ofZ 0 else n_ofZ 1) i).
    simpl in Hi. apply IH. simpl; lia.
Qed.

Lemma eqb_0_0 : n_eqb (n_ofZ 0 : O) (n_ofZ 0) = true.
Proof. rewrite (val_eqb _ S), (val_0 S). simpl. apply Req_bool_true; auto. Qed.

Lemma eqb_1_0 : n_eqb (n_ofZ 1 : O) (n_ofZ 0) = false.
Proof.
  rewrite (val_eqb _ S), (val_0 S), (val_ofZ _ S) by (simpl; discriminate).
  simpl. apply Req_bool_false. lra.
Qed.

Lemma fill_forward_props (wet : list O) : forall i, Datatypes.S i < length wet ->
  n_isnan (nget (fill_forward wet) (Datatypes.S i)) = false /\
  negb (n_eqb (nget (fill_forward wet) (Datatypes.S i)) (n_ofZ 0)) = state true wet (Datatypes.S i).
Proof.
  destruct wet as [|w0 t]; [simpl; lia|].
  induction i as [|i IH]; intros Hi.
  - change (nget (fill_forward (w0 :: t)) 1) with (nget (fill_from (n_ofZ 0 : O) t) 0).
    assert (t <> []) by (destruct t; simpl in Hi; [lia|congruence]).
    rewrite fill_from_0 by auto. cbn [state]. change (get n_nan (w0 :: t) 1) with (nget t 0).
    destruct (n_isnan (nget t 0)) eqn:E.
    + split; [apply (isnan_ofZ S); simpl; discriminate|]. rewrite eqb_0_0; auto.
    + auto.
  - simpl in Hi. destruct IH as [IH1 IH2]; [simpl; lia|].
    change (nget (fill_forward (w0 :: t)) (Datatypes.S (Datatypes.S i)))
      with (nget (fill_from (n_ofZ 0 : O) t) (Datatypes.S i)).
    change (nget (fill_forward (w0 :: t)) (Datatypes.S i))
      with (nget (fill_from (n_ofZ 0 : O) t) i) in IH1, IH2.
    rewrite fill_from_S by lia.
    cbn [state]. change (get n_nan (w0 :: t) (Datatypes.S (Datatypes.S i))) with (nget t (Datatypes.S i)).
    destruct (n_isnan (nget t (Datatypes.S i))) eqn:E; auto.
    cbn [state] in IH2. rewrite <- IH2.
    destruct (n_eqb (nget (fill_from (n_ofZ 0 : O) t) i) (n_ofZ 0)).
    + split; [apply (isnan_ofZ S); simpl; discriminate|]. rewrite eqb_0_0; auto.
    + split; [apply (isnan_ofZ S); simpl; discriminate|]. rewrite eqb_1_0; auto.
Qed.

Lemma for_range_res_snoc {St} (body : nat -> St -> res St) l i s :
  for_range_res (l ++ [i]) body s = (do s' <- for_range_res l body s; body i s').
Proof.
  revert s; induction l; intros; simpl.
  - destruct (body i s); auto.
  - destruct (body a s); simpl; auto.
Qed.

Lemma linear_ignore_fill (rsl wet : list O) ign' :
  1 <= length rsl -> length wet = length rsl ->
  baseline_linear rsl wet true = baseline_linear rsl (fill_forward wet) ign'.
Proof.
  intros H1 H2. unfold baseline_linear.
  assert (HF : length (fill_forward wet) = length wet).
  { unfold fill_forward; destruct wet; simpl; auto. rewrite fill_from_length; auto. }
  rewrite HF. destruct (Nat.eqb_spec (length rsl) 0); [lia|].
  destruct (Nat.ltb_spec (length wet) (length rsl)); [lia|].
  unfold numba_baseline_linear.
  set (s0 := mk_lin (upd 0 (nget rsl 0) (repeat zero (length rsl))) 0 (nget rsl 0) false false).
  assert (G : forall k, 1 + k <= length rsl ->
     (for_range_res (seq 1 k) (lin_body rsl wet true) s0 =
      for_range_res (seq 1 k) (lin_body rsl (fill_forward wet) ign') s0) /\
     exists s, for_range_res (seq 1 k) (lin_body rsl wet true) s0 = Ok s /\ Inv rsl wet true (1 + k) s).
  { induction k; intros Hk.
    - split; auto. exists s0; split; auto.
      apply Inv_init; auto.
    - destruct IHk as (E & s & Es & I); [lia|].
      rewrite seq_S, !for_range_res_snoc, <- E, Es. cbn [bind].
      destruct (lin_step rsl wet true (1 + k) s) as (s' & B & I'); auto; [lia|].
      split; [|exists s'; split; auto].
      unfold lin_body.
      destruct (fill_forward_props wet k) as [F1 F2]; [lia|].
      replace (1 + k) with (Datatypes.S k) by lia. rewrite F1.
      change (n_truthy (nget (fill_forward wet) (Datatypes.S k)) = state true wet (Datatypes.S k)) in F2.
      rewrite !F2.
      pose proof (I_lw _ _ _ _ _ I) as Lw. replace (1 + k - 1) with k in Lw by lia. rewrite Lw.
      pose proof (I_fn _ _ _ _ _ I) as Fn.
      assert (ls_found_nan s = false) as -> by (rewrite Fn; reflexivity).
      cbn [state]. unfold nget, n_truthy, zero.
      destruct (n_isnan (get n_nan wet (Datatypes.S k))); auto. }
  destruct (G (length rsl - 1)) as [E _]; [lia|]. rewrite E. reflexivity.
Qed.
End Fill.

(** exact arithmetic *)
Section Exact.

Lemma line_point_exact a b m k : 0 < m ->
  line_point (O := XR) (XFin a) (XFin b) m k = XFin (a + INR k * ((b - a) / INR m)).
Proof.
  intros. unfold line_point. simpl. rewrite <- !INR_IZR_INZ.
  assert (0 < INR m)%R by (apply lt_0_INR; auto).
  rewrite Req_bool_false by lra. simpl. reflexivity.
Qed.

Lemma frac_between a b x lo hi : (0 <= x <= 1)%R -> (lo <= a <= hi)%R -> (lo <= b <= hi)%R ->
  (lo <= a + x * (b - a) <= hi)%R.
Proof. intros. assert (a + x * (b - a) = (1 - x) * a + x * b)%R by ring. rewrite H2. nra. Qed.

Definition good lo hi (x : xr) : Prop := exists r, x = XFin r /\ ((lo <= r <= hi)%R \/ r = 0%R).
Definition good1 lo hi (x : xr) : Prop := exists r, x = XFin r /\ (lo <= r <= hi)%R.

Lemma good1_good lo hi x : good1 lo hi x -> good lo hi x.
Proof. intros (r & -> & H); exists r; auto. Qed.

Lemma linspace_good lo hi (a b : xr) k :
  2 <= k -> good1 lo hi a -> good1 lo hi b ->
  forall x, In x (n_linspace (O := XR) a b k) -> good1 lo hi x.
Proof.
  intros Hk (ra & -> & Ha) (rb & -> & Hb) x Hx.
  apply In_get with (d := (n_nan : XR)) in Hx as (i & Hi & <-).
  rewrite linspace_length in Hi.
  rewrite (linspace_get (O := XR)) by auto.
  destruct (Nat.eqb_spec i (k - 1)); [exists rb; auto|].
  change (good1 lo hi (line_point (O := XR) (XFin ra) (XFin rb) (k - 1) i)).
  rewrite line_point_exact by lia. eexists; split; [reflexivity|].
  assert (P : (0 < INR (k - 1))%R) by (apply lt_0_INR; lia).
  replace (INR i * ((rb - ra) / INR (k - 1)))%R with ((INR i / INR (k - 1)) * (rb - ra))%R by (field; lra).
  apply frac_between; auto. split.
  - apply Rmult_le_pos; [apply pos_INR|]. left; apply Rinv_0_lt_compat; auto.
  - apply Rmult_le_reg_r with (INR (k - 1)); auto.
    unfold Rdiv; rewrite Rmult_assoc, Rinv_l, Rmult_1_l, Rmult_1_r by lra. apply le_INR; lia.
Qed.

Lemma upd_Forall {A} (P : A -> Prop) i v l : P v -> Forall P l -> Forall P (upd i v l).
Proof.
  intros Hv H. revert i; induction H; intros [|i]; simpl; auto.
Qed.

Lemma upd_slice_Forall {A} (P : A -> Prop) vs : forall i l, Forall P vs -> Forall P l -> Forall P (upd_slice i vs l).
Proof.
  induction vs; simpl; intros i l Hv H; auto. inversion Hv; subst.
  apply IHvs; auto. apply upd_Forall; auto.
Qed.

Lemma linear_ignore_range (rsl : list R) (wet : list XR) lo hi (b : list XR) :
  (forall r, In r rsl -> (lo <= r <= hi)%R) ->
  baseline_linear (xs rsl : list XR) wet true = Ok b ->
  forall i, i < length rsl -> good lo hi (nget b i).
Proof.
  intros HR H.
  assert (T : forall i, i < length rsl -> good1 lo hi (nget (xs rsl : list XR) i)).
  { intros i Hi. exists (get 0%R rsl i). unfold xs, nget. rewrite get_map with (d := 0%R) by auto.
    split; auto. apply HR. apply get_In; auto. }
  destruct (linear_ok _ _ _ _ H) as [N1 N2]. unfold xs in N1, N2. rewrite map_length in N1, N2.
  pose proof H as H'. unfold baseline_linear in H'.
  destruct (Nat.eqb _ 0); try discriminate. destruct (Nat.ltb _ _); try discriminate.
  unfold numba_baseline_linear in H'.
  assert (LX : length (xs rsl : list XR) = length rsl) by apply map_length.
  rewrite LX in H'.
  set (s0 := mk_lin (upd 0 (nget (xs rsl : list XR) 0) (repeat zero (length rsl))) 0 (nget (xs rsl : list XR) 0) false false) in H'.
  destruct (for_range_res_inv (fun i s => Inv (xs rsl : list XR) wet true i s /\ Forall (good lo hi) (ls_baseline s))
      (length rsl - 1) 1 (lin_body (xs rsl : list XR) wet true) s0) as (s & E & I & G).
  - split.
    + unfold s0. rewrite <- LX at 1. apply Inv_init. lia.
    + unfold s0; cbn [ls_baseline]. apply upd_Forall; [apply good1_good, T; lia|].
      apply Forall_forall. intros x Hx. apply repeat_spec in Hx. subst. exists 0%R; auto.
  - intros i s Hi [I G].
    destruct (lin_step (xs rsl : list XR) wet true i s) as (s' & B & I'); auto; [lia|].
    exists s'; split; auto. split; auto.
    revert B. unfold lin_body.
    pose proof (I_fn _ _ _ _ _ I) as Fn.
    assert (F : ls_found_nan s = false) by (rewrite Fn; reflexivity).
    set (isw := if n_isnan (nget wet i) then _ else _).
    replace (if n_isnan (nget wet i) then ls_found_nan s else ls_found_nan s) with false
      by (rewrite F; destruct (n_isnan _); auto).
    destruct (isw && _); [intros B; injection B as <-; auto|].
    destruct (_ && negb isw); [intros B; injection B as <-|].
    + cbn [ls_baseline]. apply upd_slice_Forall; auto.
      apply Forall_forall. intros x Hx. apply good1_good.
      pose proof (I_d _ _ _ _ _ I).
      refine (linspace_good lo hi _ _ (i - ls_last_dry_i s + 1) _ _ _ x Hx); try lia.
      * rewrite (I_rsl _ _ _ _ _ I). apply T; lia.
      * apply T; lia.
    + destruct (_ && negb isw); [intros B; injection B as <-|discriminate].
      cbn [ls_baseline]. apply upd_Forall; auto. apply good1_good, T; lia.
  - rewrite E in H'. simpl in H'. injection H' as <-.
    intros i Hi. rewrite (Forall_get (n_nan : XR)) in G. apply G.
    rewrite (I_len _ _ _ _ _ I), LX. auto.
Qed.

End Exact.

(** ** Statements in the form used by the property file *)
Section Final.
Context {O : numops} (S : numsem O).

Lemma constant_exists (trsl wet : list O) n :
  1 <= n -> length wet = length trsl -> exists b, baseline_constant trsl wet n = Ok b.
Proof.
  intros H1 H2. unfold baseline_constant. rewrite H2, Nat.ltb_irrefl.
  destruct (Nat.eqb_spec n 0); [lia|]. eauto.
Qed.

Lemma constant_dry_final (trsl wet : list O) n :
  1 <= n -> length wet = length trsl ->
  exists b, baseline_constant trsl wet n = Ok b /\ length b = length trsl /\
    (forall i, i < n -> i < length trsl -> get n_nan b i = get n_nan trsl i) /\
    (forall i, i < length trsl -> ~ flagged_wet wet i -> get n_nan b i = get n_nan trsl i).
Proof.
  intros H1 H2. destruct (constant_exists trsl wet n H1 H2) as [b E]. exists b; split; auto.
  destruct (constant_dry _ _ _ _ E) as [L D]. split; auto.
Qed.

Lemma constant_wet_final (trsl wet : list O) n :
  1 <= n -> length wet = length trsl ->
  exists b, baseline_constant trsl wet n = Ok b /\
    (forall s i, n <= s -> i < length trsl -> event_from wet s i ->
       get n_nan b i = average (slice (s - n) s b)) /\
    (forall i, n <= i < length trsl -> (forall j, n - 1 <= j <= i -> flagged_wet wet j) ->
       get n_nan b i = get n_nan trsl (n - 1)).
Proof.
  intros H1 H2. destruct (constant_exists trsl wet n H1 H2) as [b E]. exists b; split; auto.
  split; intros.
  - apply (constant_wet _ _ _ _ s i E); auto.
  - apply (constant_wet_early _ _ _ _ i E); auto.
Qed.

Lemma linear_run_final (rsl wet : list O) ign :
  1 <= length rsl -> length wet = length rsl ->
  exists b, baseline_linear rsl wet ign = Ok b /\ length b = length rsl /\
    (forall d e, completed ign wet (length rsl) d e -> ~ has_nan ign wet d e ->
       forall j, d <= j < e ->
         get n_nan b j = line_point (get n_nan rsl d) (get n_nan rsl e) (e - d) (j - d)) /\
    (forall i, i < length rsl -> state ign wet i = false ->
       (forall d, completed ign wet (length rsl) d i -> ~ has_nan ign wet d i) ->
       (forall e, ~ completed ign wet (length rsl) i e) ->
       get n_nan b i = get n_nan rsl i).
Proof.
  intros H1 H2. destruct (linear_never_raises rsl wet ign H1 H2) as [b E].
  exists b; split; auto. split; [eapply linear_length; eauto|]. split.
  - intros d e C Hn j Hj. pose proof C as (C1 & C2 & _).
    change (get n_nan b j) with (nget b j).
    rewrite (linear_run rsl wet ign b d e j E C Hj). rewrite runval_clean by (auto; lia).
    destruct (Nat.eqb_spec j e); [lia|]. reflexivity.
  - intros i Hi Hs Hp Hn.
    destruct (linear_dry rsl wet ign b i E Hi Hs Hp) as [?|(e & C & _)]; auto.
    + intros e C. elim (Hn e C).
    + elim (Hn e C).
Qed.

Lemma linear_trailing_final (rsl wet : list O) ign d :
  length wet = length rsl -> d < length rsl ->
  (forall j, d < j < length rsl -> state ign wet j = true) ->
  exists b, baseline_linear rsl wet ign = Ok b /\
    forall j, d < j < length rsl -> get n_nan b j = n_ofZ 0.
Proof.
  intros H2 Hd Hw. destruct (linear_never_raises rsl wet ign) as [b E]; try lia.
  exists b; split; auto. intros j Hj.
  apply (linear_trailing rsl wet ign b d j E Hd Hw Hj).
Qed.

Lemma linear_nan_final (rsl wet : list O) d e :
  length wet = length rsl ->
  completed false wet (length rsl) d e -> has_nan false wet d e ->
  exists b, baseline_linear rsl wet false = Ok b /\
    (forall j, d <= j < e -> get n_nan b j = n_nan) /\
    ((forall e', ~ completed false wet (length rsl) e e') -> get n_nan b e = n_nan).
Proof.
  intros H2 C HN. pose proof C as (C1 & C2 & C3 & C4 & C5).
  destruct (linear_never_raises rsl wet false) as [b E]; try lia.
  exists b; split; auto. split.
  - intros j Hj. change (get n_nan b j) with (nget b j).
    rewrite (linear_run rsl wet false b d e j E C Hj). apply runval_nan; auto.
  - intros Hno. change (get n_nan b e) with (nget b e).
    rewrite (linear_run_end rsl wet false b d e E C); [apply runval_nan; auto|].
    destruct (next_dry rsl wet false (length rsl - e) e) as [A|(e' & A & B & D)]; try lia.
    + right; right; intros; apply A; lia.
    + destruct (Nat.eq_dec e' (Datatypes.S e)) as [->|]; [right; left; auto|].
      elim (Hno e'). repeat split; auto; lia.
Qed.
End Final.

Section FinalExact.
Lemma xsum_fold (l : list R) acc : fold_left xadd (map XFin l) (XFin acc) = XFin (acc + fold_right Rplus 0 l)%R.
Proof.
  revert acc; induction l; intros; simpl.
  - f_equal; ring.
  - rewrite IHl. f_equal; ring.
Qed.

Lemma constant_wet_exact (trsl : list R) (wet : list XR) n s i (b : list XR) :
  baseline_constant (xs trsl : list XR) wet n = Ok b ->
  n <= s -> i < length trsl -> event_from wet s i ->
  exists before, slice (s - n) s b = xs before /\ length before = n /\
    get XNaN b i = XFin (real_average before).
Proof.
  intros E Hs Hi Ev.
  pose proof (baseline_constant_ok _ _ _ _ E) as (N1 & M1 & _).
  pose proof (constant_rec _ _ _ _ E) as [L _].
  assert (LX : length (xs trsl : list XR) = length trsl) by apply map_length.
  assert (L' : length b = length trsl) by (rewrite L; apply map_length). clear L.
  destruct Ev as (Ev1 & Ev2 & Ev3).
  pose proof (constant_range trsl wet n b (fold_right Rmin 0%R trsl) (fold_right Rmax 0%R trsl) E) as R.
  assert (HR : forall r, In r trsl -> (fold_right Rmin 0 trsl <= r <= fold_right Rmax 0 trsl)%R).
  { clear. induction trsl; simpl; intros r []; subst.
    - split; [apply Rmin_l|apply Rmax_l].
    - destruct (IHtrsl r H) as [A B]. split.
      + eapply Rle_trans; [apply Rmin_r|auto].
      + eapply Rle_trans; [apply B|apply Rmax_r]. }
  specialize (R HR).
  assert (exists before, slice (s - n) s b = xs before /\ length before = n) as (before & Eb & Lb).
  { exists (map (fun x : XR => match x with XFin r => r | _ => 0%R end) (slice (s - n) s b)).
    rewrite map_length, slice_length by lia. split; [|lia].
    unfold xs. rewrite map_map. symmetry. rewrite <- map_id. apply map_ext_in.
    intros x Hx. apply In_get with (d := (n_nan : XR)) in Hx as (j & Hj & <-).
    rewrite slice_length in Hj by lia. rewrite get_slice by lia.
    destruct (R (s - n + j)) as (r & Er & _); [lia|]. unfold nget in Er. rewrite Er. auto. }
  exists before. repeat split; auto.
  pose proof (constant_wet _ _ _ _ s i E Hs ltac:(rewrite LX; auto) ltac:(repeat split; auto; lia)) as W.
  change (get XNaN b i) with (get (n_nan : XR) b i). rewrite W, Eb.
  unfold n_mean, n_sum, xs, zero. rewrite map_length. simpl. rewrite xsum_fold. simpl.
  rewrite <- INR_IZR_INZ.
  assert (0 < INR (length before))%R by (apply lt_0_INR; lia).
  rewrite Req_bool_false by lra. unfold real_average. rewrite Rplus_0_l. reflexivity.
Qed.

Lemma constant_range_final (trsl : list R) (wet : list XR) n lo hi :
  1 <= n -> length wet = length trsl -> (forall r, In r trsl -> (lo <= r <= hi)%R) ->
  exists b, baseline_constant (xs trsl : list XR) wet n = Ok b /\
    forall i, i < length trsl -> exists r, get XNaN b i = XFin r /\ (lo <= r <= hi)%R.
Proof.
  intros H1 H2 HR. destruct (constant_exists (xs trsl : list XR) wet n H1) as [b E].
  { rewrite H2. symmetry. apply map_length. }
  exists b; split; auto. intros i Hi. apply (constant_range trsl wet n b lo hi E HR i Hi).
Qed.

Lemma xs_get (l : list R) i : i < length l -> get (n_nan : XR) (xs l) i = XFin (get 0%R l i).
Proof. intros. unfold xs. rewrite get_map with (d := 0%R) by auto. reflexivity. Qed.

Lemma linear_exact_final (rsl : list R) (wet : list XR) ign :
  1 <= length rsl -> length wet = length rsl ->
  exists b, baseline_linear (xs rsl : list XR) wet ign = Ok b /\
    (forall d e j, completed ign wet (length rsl) d e -> ~ has_nan ign wet d e -> d <= j < e ->
       let a := get 0%R rsl d in let z := get 0%R rsl e in
       let v := (a + (z - a) * (INR (j - d) / INR (e - d)))%R in
       get XNaN b j = XFin v /\ (Rmin a z <= v <= Rmax a z)%R) /\
    (forall i, i < length rsl -> state ign wet i = false ->
       (forall d, completed ign wet (length rsl) d i -> ~ has_nan ign wet d i) ->
       (forall e, completed ign wet (length rsl) i e -> ~ has_nan ign wet i e) ->
       get XNaN b i = XFin (get 0%R rsl i)).
Proof.
  intros H1 H2.
  assert (LX : length (xs rsl : list XR) = length rsl) by apply map_length.
  destruct (linear_run_final (xs rsl : list XR) wet ign) as (b & E & L & P1 & _); try (rewrite LX; auto).
  exists b; split; auto. rewrite LX in P1.
  assert (Q : forall d e j, completed ign wet (length rsl) d e -> ~ has_nan ign wet d e -> d <= j < e ->
       get XNaN b j = XFin (get 0%R rsl d + (get 0%R rsl e - get 0%R rsl d) * (INR (j - d) / INR (e - d)))%R).
  { intros d e j C Hn Hj. pose proof C as (C1 & C2 & _).
    change (get XNaN b j) with (get (n_nan : XR) b j). rewrite (P1 d e C Hn j Hj).
    rewrite !xs_get by lia. rewrite line_point_exact by lia. f_equal.
    assert (0 < INR (e - d))%R by (apply lt_0_INR; lia). field. lra. }
  split.
  - intros d e j C Hn Hj a z v. split; [apply Q; auto|].
    pose proof C as (C1 & C2 & _).
    assert (P : (0 < INR (e - d))%R) by (apply lt_0_INR; lia).
    unfold v. rewrite (Rmult_comm (z - a)). apply frac_between.
    + split.
      * apply Rmult_le_pos; [apply pos_INR|]. left; apply Rinv_0_lt_compat; auto.
      * apply Rmult_le_reg_r with (INR (e - d)); auto.
        unfold Rdiv; rewrite Rmult_assoc, Rinv_l, Rmult_1_l, Rmult_1_r by lra. apply le_INR; lia.
    + split; [apply Rmin_l|apply Rmax_l].
    + split; [apply Rmin_r|apply Rmax_r].
  - intros i Hi Hs Hp Hn.
    destruct (linear_dry (xs rsl : list XR) wet ign b i E) as [A|(e & C & A)]; auto; try (rewrite LX; auto).
    + change (get XNaN b i) with (nget b i). rewrite A. apply xs_get; auto.
    + rewrite LX in C. rewrite (Q i e i C (Hn e C)) by (destruct C; lia).
      rewrite Nat.sub_diag. simpl. f_equal. unfold Rdiv. ring.
Qed.

Lemma linear_ignore_final (rsl : list R) (wet : list XR) lo hi :
  1 <= length rsl -> length wet = length rsl -> (forall r, In r rsl -> (lo <= r <= hi)%R) ->
  exists b, baseline_linear (xs rsl : list XR) wet true = Ok b /\
    forall i, i < length rsl ->
      exists r, get XNaN b i = XFin r /\ ((lo <= r <= hi)%R \/ r = 0%R).
Proof.
  intros H1 H2 HR.
  assert (LX : length (xs rsl : list XR) = length rsl) by apply map_length.
  destruct (linear_never_raises (xs rsl : list XR) wet true) as [b E]; try lia.
  exists b; split; auto. intros i Hi. apply (linear_ignore_range rsl wet lo hi b HR E i Hi).
Qed.
End FinalExact.
