(** Proofs about the look-up of the Leijnse wet antenna attenuation. *)
From Coq Require Import List ZArith Bool String Lia Reals Lra Psatz.
From Flocq Require Import Core.
From Verif Require Import Base Num NumList NpOps Libm RealSpec KR_model KR_spec KR_proofs KR_proofs3 Pastorek_model Pastorek_spec Pastorek_proofs
  Leijnse_model Leijnse_spec Leijnse_proofs LeijnseObs_model LeijnseObs_spec.
Import ListNotations.
Local Open Scope R_scope.
Local Notation length := List.length.

Lemma finite_ofR l : finite_list (ofR l) = Some l.
Proof. induction l; simpl; auto. fold (ofR l). rewrite IHl. reflexivity. Qed.

Lemma interp_index_bracketing : bracketing (fun xp x => interp_index xp x (length xp - 1)).
Proof.
  intros X x Hn [H0 H1] j. unfold j. rewrite ofR_length, interp_index_XR by lia.
  destruct (idx_spec X x (length X - 1) H0) as [A B]. pose proof (idx_le X x (length X - 1)) as C.
  split; [lia|]. split; auto. intros H. apply B. lia.
Qed.

Section Run.
Variable search : list XR -> XR -> nat.
Hypothesis SB : bracketing search.

Lemma interp_at_XR (X W : nat -> R) (k : nat) x : X 0%nat <= x <= X (k + 1)%nat ->
  let L f := map f (seq 0 (k + 2)) in
  exists y, interp_at search (ofR (L X)) (ofR (L W)) (XFin x : XR) = (XFin y : XR) /\ on_polygon X W (k + 1) x y.
Proof.
  intros H L.
  assert (LL : forall f, length (L f) = (k + 2)%nat) by (intros; unfold L; rewrite map_length, seq_length; auto).
  assert (GG : forall f i, (i < k + 2)%nat -> rget (L f) i = f i) by (intros; unfold rget, get, L; apply nth_map_seq; auto).
  destruct (SB (L X) x) as (J & A & B); [rewrite LL; lia|rewrite LL, !GG by lia; replace (k + 2 - 1)%nat with (k + 1)%nat by lia; auto|].
  set (j := search (ofR (L X)) (XFin x : XR)) in *. rewrite LL in *. rewrite GG in A by auto.
  unfold interp_at. change (n_isnan (XFin x : XR)) with false. cbv iota zeta. fold j.
  rewrite ofR_length, LL. rewrite !(ofR_get _ (L X)) by (rewrite LL; lia).
  rewrite !(ofR_get _ (L W) j) by (rewrite LL; lia). rewrite !GG by auto.
  destruct (Nat.eqb_spec j (k + 2 - 1)) as [EJ|NJ].
  - exists (W j). split; auto. exists k, 1. split; [lia|]. split; [lra|].
    replace (k + 1)%nat with j by lia. assert (x = X j) by (replace (k + 1)%nat with j in H by lia; lra). split; lra.
  - specialize (B ltac:(lia)). rewrite GG in B by lia.
    change (n_eqb (XFin (X j) : XR) (XFin x : XR)) with (Req_bool (X j) x).
    destruct (Req_bool_spec (X j) x) as [EQ|NE].
    + exists (W j). split; auto. exists j, 0. split; [lia|]. split; [lra|]. split; lra.
    + rewrite !(ofR_get _ (L X)) by (rewrite LL; lia). rewrite !(ofR_get _ (L W)) by (rewrite LL; lia). rewrite !GG by lia.
      change (n_sub (XFin (W (j + 1)%nat) : XR) (XFin (W j) : XR)) with (XFin (W (j + 1)%nat - W j) : XR).
      change (n_sub (XFin (X (j + 1)%nat) : XR) (XFin (X j) : XR)) with (XFin (X (j + 1)%nat - X j) : XR).
      change (n_sub (XFin x : XR) (XFin (X j) : XR)) with (XFin (x - X j) : XR).
      assert (D : X (j + 1)%nat - X j <> 0) by lra.
      change (n_div (XFin (W (j + 1)%nat - W j) : XR) (XFin (X (j + 1)%nat - X j) : XR))
        with (xdiv (XFin (W (j + 1)%nat - W j)) (XFin (X (j + 1)%nat - X j)) : XR).
      rewrite xdiv_fin by auto. eexists. split; [reflexivity|].
      exists j, ((x - X j) / (X (j + 1)%nat - X j)). split; [lia|].
      split; [|split; field; auto].
      split; [apply Rmult_le_pos; [lra|left; apply Rinv_0_lt_compat; lra]|].
      apply Rmult_le_reg_r with (X (j + 1)%nat - X j); [lra|]. unfold Rdiv. rewrite Rmult_assoc, Rinv_l by lra. lra.
Qed.

Lemma table_pos i : 0 <= table_rain i <= table_rain (i + 1).
Proof.
  destruct table_rain_props as (T0 & TI & _). split; [|left; apply TI].
  induction i; [lra|]. specialize (TI i). replace (i + 1)%nat with (S i) in TI by lia. lra.
Qed.

Lemma leijnse_from_A_obs cubic f l T gamma delta na la pol :
  exact_cubic cubic -> 1 <= f / 10 ^ 9 <= 100 -> horizontal pol \/ vertical pol ->
  0 < l -> 0 < T <= 339 -> 0 < fst na -> 0 <= snd na -> 0 <= la ->
  exists (a b : R),
    a_b cubic [XFin (f / 10 ^ 9) : XR] (PolStr pol) "ITU_2005" = Ok ([XFin a : XR], [XFin b : XR]) /\ 0 < a /\ 0 < b /\
    let waa i := waa_formula (rain_of a b l (table_rain i)) f T gamma delta na la in
    let obs i := table_rain i + waa i in
    obs 0%nat = 0 /\
    forall A_obs : list XR,
      let run := waa_leijnse_2008_from_A_obs search cubic A_obs f pol l T gamma delta na la in
      ((exists x, In x A_obs /\ n_ltb x (XFin 0 : XR) = true) -> run = Err ValueError) /\
      ((exists x, In x A_obs /\ n_ltb (XFin (obs 99%nat) : XR) x = true) -> run = Err ValueError) /\
      ((forall x, In x A_obs -> n_ltb x (XFin 0 : XR) = false /\ n_ltb (XFin (obs 99%nat) : XR) x = false) ->
        exists out, run = Ok out /\ length out = length A_obs /\
        forall i, (i < length A_obs)%nat ->
          match xat A_obs i with
          | XFin x => exists y, xat out i = XFin y /\ on_polygon obs waa 99 x y /\ 0 <= x - y <= 1000
          | v => xat out i = v
          end).
Proof.
  intros Hc Hf Hp Hl HT Hn Hi Hla.
  destruct (a_b_exact cubic Hc [f / 10 ^ 9] (PolStr pol) "ITU_2005" Itu_table.ITU_table_2005) as (lia_ & lb & E & La & Lb & G); auto.
  { discriminate. } { intros x [<-|[]]; auto. } { intros s [<-|[]]; auto. }
  destruct (G 0%nat ltac:(simpl; lia)) as (Pa & Pb & _).
  destruct lia_ as [|a [|a1 la']]; try discriminate. destruct lb as [|b [|b1 lb]]; try discriminate.
  unfold rget, get in Pa, Pb. simpl in Pa, Pb. clear G La Lb.
  exists a, b. split; [exact E|]. split; [exact Pa|]. split; [exact Pb|].
  set (rr := fun i => rain_of a b l (table_rain i)).
  intros waa obs.
  destruct table_rain_props as (T0 & TI & T99).
  assert (Hf0 : 0 <= f) by lra.
  assert (Pal : 0 < a * l) by (apply Rmult_lt_0_compat; auto).
  assert (ww0 : waa 0%nat = 0).
  { unfold waa. unfold rain_of. rewrite T0. destruct (Req_EM_T 0 0); [|lra]. apply formula_zero. apply den_nz; auto. }
  assert (O0 : obs 0%nat = 0) by (unfold obs; rewrite T0, ww0; ring).
  split; auto. intros A_obs run.
  set (X := tab obs). set (W := tab waa).
  assert (RUN : existsb (fun x : XR => n_ltb x zero) A_obs = false ->
     run = interp1d_with search (ofR X) (ofR W) A_obs).
  { intros EX. unfold run, waa_leijnse_2008_from_A_obs. rewrite EX. cbv zeta.
    change (n_div (XFin f : XR) (n_ofZ (10 ^ 9))) with (xdiv (XFin f) (XFin (IZR (10 ^ 9))) : XR).
    rewrite xdiv_fin by (apply not_0_IZR; discriminate).
    replace (f / IZR (10 ^ 9)) with (f / 10 ^ 9) by (f_equal; simpl; lra).
    rewrite (calc_single_freq XRsem XRm cubic _ _ _ _ _ (XFin a : XR) (XFin b : XR)); [|apply pos_XR; auto|exact E].
    rewrite (calc_scalar XRsem) by (apply pos_XR; auto). cbn [bind].
    assert (EB : n_div (one : XR) (XFin b : XR) = (XFin (1 / b) : XR)) by (apply (xdiv_fin 1 b); lra).
    rewrite EB. change (n_mul (XFin a : XR) (XFin l : XR)) with (XFin (a * l) : XR).
    rewrite A_rain_eq.
    rewrite (ofR_map_tab _ table_rain rr).
    2:{ intros i Hi'. change (zero : XR) with (XFin 0 : XR). unfold rr, rain_of. destruct (Req_EM_T (table_rain i) 0) as [E0|N0].
        - rewrite E0. apply rate_exact_0; auto. apply Rdiv_lt_0_compat; lra.
        - assert (0 < table_rain i) by (pose proof (table_pos i); lra).
          rewrite rate_exact_pos by auto. rewrite Rlt_bool_false; auto. left. apply Rpower_pos. }
    rewrite finite_ofR. rewrite leijnse_mask_redundant by auto. cbn [bind].
    replace (map (fun r => waa_formula r f T gamma delta na la) (tab rr)) with W by (unfold W, tab, waa; rewrite map_map; auto).
    fold (ofR W). unfold W. rewrite map2_tab. reflexivity. }
  assert (LX : length X = 100%nat) by apply tab_length.
  assert (LO : get (n_nan : XR) (ofR X) 0 = (XFin 0 : XR)) by (rewrite ofR_get by lia; unfold X; rewrite tab_get by lia; rewrite O0; auto).
  assert (HI : get (n_nan : XR) (ofR X) (length (ofR X) - 1) = (XFin (obs 99%nat) : XR)).
  { rewrite ofR_length, ofR_get by lia. rewrite LX. unfold X. rewrite tab_get by lia. reflexivity. }
  split; [|split].
  - intros (x & Hx & Lx). unfold run, waa_leijnse_2008_from_A_obs.
    assert (existsb (fun x : XR => n_ltb x zero) A_obs = true) as -> by (apply existsb_exists; exists x; auto). reflexivity.
  - intros (x & Hx & Lx). destruct (existsb (fun x : XR => n_ltb x zero) A_obs) eqn:EX.
    + unfold run, waa_leijnse_2008_from_A_obs. rewrite EX. reflexivity.
    + rewrite (RUN eq_refl). unfold interp1d_with. rewrite LO, HI.
      assert (existsb (fun v : XR => n_ltb v (XFin 0 : XR)) A_obs = false) as -> by exact EX.
      assert (existsb (fun v : XR => n_ltb (XFin (obs 99%nat) : XR) v) A_obs = true) as -> by (apply existsb_exists; exists x; auto).
      reflexivity.
  - intros H.
    assert (EX : existsb (fun x : XR => n_ltb x zero) A_obs = false).
    { apply not_true_is_false. intros C. apply existsb_exists in C as (x & Hx & C).
      change (n_ltb x (zero : XR)) with (n_ltb x (XFin 0 : XR)) in C. destruct (H x Hx). congruence. }
    rewrite (RUN EX). unfold interp1d_with. rewrite LO, HI.
    assert (existsb (fun v : XR => n_ltb v (XFin 0 : XR)) A_obs = false) as -> by exact EX.
    assert (existsb (fun v : XR => n_ltb (XFin (obs 99%nat) : XR) v) A_obs = false) as ->.
    { apply not_true_is_false. intros C. apply existsb_exists in C as (x & Hx & C). destruct (H x Hx). congruence. }
    eexists. split; [reflexivity|]. split; [apply map_length|]. intros i Hlt.
    assert (XO : xat (map (interp_at search (ofR X) (ofR W)) A_obs) i = interp_at search (ofR X) (ofR W) (get (n_nan : XR) A_obs i)).
    { unfold xat. apply (get_map _ (n_nan : XR)). auto. }
    rewrite XO. unfold xat. pose proof (H _ (get_In (n_nan : XR) A_obs i Hlt)) as [H1 H2].
    destruct (get (n_nan : XR) A_obs i) as [| |x|]; try discriminate; [reflexivity|].
    simpl in H1, H2.
    assert (B0 : obs 0%nat <= x). { rewrite O0. destruct (Rlt_bool_spec x 0); [discriminate|auto]. }
    assert (B1 : x <= obs (98 + 1)%nat). { simpl Nat.add. destruct (Rlt_bool_spec (obs 99%nat) x); [discriminate|auto]. }
    destruct (interp_at_XR obs waa 98 x (conj B0 B1)) as (y & EY & PY).
    exists y. split; [exact EY|]. split; [exact PY|].
    destruct PY as (j & t & Hj & Ht & Ex & Ey). simpl in Hj.
    assert (Q : x - y = (1 - t) * table_rain j + t * table_rain (j + 1)) by (rewrite Ex, Ey; unfold obs; ring).
    pose proof (table_pos j). assert (M : table_rain (j + 1) <= 1000).
    { rewrite <- T99. clear - Hj TI. assert (K : forall m, table_rain (j + 1) <= table_rain (j + 1 + m)).
      { induction m; [rewrite Nat.add_0_r; lra|]. specialize (TI (j + 1 + m)%nat). replace (j + 1 + S m)%nat with (j + 1 + m + 1)%nat by lia. lra. }
      specialize (K (98 - j)%nat). replace (j + 1 + (98 - j))%nat with 99%nat in K by lia. auto. }
    rewrite Q. nra.
Qed.
End Run.
