From Coq Require Import List ZArith Bool String Lia Arith Reals Lra.
From Flocq Require Import Core.
From Verif Require Import Base Num NumF64 NumList Libm RealSpec Baseline_model Baseline_spec Baseline_proofs Baseline_proofs2
  Schleiss_model Schleiss_spec Schleiss_proofs
  KR_model KR_spec KR_proofs KR_proofs3 Chain_model Chain_spec Chain_proofs Pastorek_model Pastorek_spec Pastorek_proofs
  Leijnse_model Leijnse_spec Leijnse_proofs LeijnseObs_model LeijnseObs_spec LeijnseObs_proofs ObsChain_model ObsChain_spec.
Import ListNotations.
Local Open Scope nat_scope.
Local Notation length := List.length.

Section Any.
Context {O : numops} (S : numsem O) (L : libm O).
Variable cubic : list O -> list O -> O -> O.

Definition wn (x : O) : O := if n_leb zero x then x else zero.

Lemma wn_ok x : n_isnan (wn x) = false /\ nonneg (wn x).
Proof.
  unfold wn. destruct (n_leb zero x) eqn:E.
  - split; [apply (leb_nan S) in E; tauto|exact E].
  - split; [apply (zero_ok S)|]. apply (leb_refl S). apply (zero_ok S).
Qed.

Lemma wn_nan x : n_isnan x = true -> wn x = zero.
Proof.
  intros H. unfold wn. destruct (n_leb zero x) eqn:E; auto. apply (leb_nan S) in E as [_ E]. congruence.
Qed.

Lemma sub_nan_l (x y : O) : n_isnan x = true -> n_isnan (n_sub x y) = true.
Proof.
  intros H. rewrite (val_isnan _ S) in *. rewrite (val_sub _ S). destruct (val S x); try discriminate. simpl.
  rewrite (rnd_nan _ S). reflexivity.
Qed.

(** everything about one run at once, for any method *)
Lemma obs_chain_run waa_of trsl wet n (k : kr_args O) a b :
  kr_f k = None -> kr_pol k = None -> kr_a k = Some (CScalar a) -> kr_b k = Some (CScalar b) -> positive b ->
  1 <= n -> length wet = length trsl ->
  exists bl, baseline_constant trsl wet n = Ok bl /\ length bl = length trsl /\
    (forall e, waa_of trsl bl (map wn (map2 n_sub trsl bl)) = Err e -> obs_chain L cubic waa_of trsl wet n k = Err e) /\
    (forall w, waa_of trsl bl (map wn (map2 n_sub trsl bl)) = Ok w -> length w = length trsl ->
     exists R, obs_chain L cubic waa_of trsl wet n k = Ok R /\ length R = length trsl /\
      forall i, i < length trsl -> get n_nan R i = rt L a b k (wn (n_sub (atten trsl bl i) (get n_nan w i)))).
Proof.
  intros E1 E2 E3 E4 Hb Hn Hw.
  destruct (constant_exists trsl wet n Hn Hw) as [bl EB].
  destruct (constant_dry _ _ _ _ EB) as [LB _].
  exists bl. split; auto. split; auto.
  assert (LA : length (map2 n_sub trsl bl) = length trsl) by (rewrite map2_length; lia).
  unfold obs_chain. rewrite EB. cbn [bind]. unfold where_nonneg. fold wn. split.
  - intros e ->. reflexivity.
  - intros w -> LW. cbn [bind]. rewrite (rain_rate_eq S L cubic _ _ a b) by auto.
    eexists. split; [reflexivity|].
    assert (LA2 : length (map2 n_sub (map2 n_sub trsl bl) w) = length trsl) by (rewrite map2_length; lia).
    split; [rewrite !map_length; auto|].
    intros i Hi. rewrite !get_map with (d := n_nan) by (rewrite ?map_length; lia).
    unfold atten. rewrite !get_map2 with (da := n_nan) (db := n_nan) by lia. reflexivity.
Qed.

Lemma obs_chain_never_missing waa_of trsl wet n (k : kr_args O) R :
  pow_sane L -> pow_zero L -> plain_coefficients k -> 1 <= n -> length wet = length trsl ->
  (forall bl A w, waa_of trsl bl A = Ok w -> length A = length trsl -> length w = length A) ->
  obs_chain L cubic waa_of trsl wet n k = Ok R ->
  length R = length trsl /\
  forall i, i < length trsl -> nonneg (get n_nan R i) /\
    (missing (get n_nan trsl i) -> n_eqb (get n_nan R i) (n_ofZ 0) = true).
Proof.
  intros sane pz (a & b & E1 & E2 & E3 & E4 & H1 & H2 & Hb & He) Hn Hw HL ER.
  destruct (obs_chain_run waa_of trsl wet n k a b E1 E2 E3 E4 Hb Hn Hw) as (bl & EB & LB & Herr & Hok).
  assert (LA : length (map wn (map2 n_sub trsl bl)) = length trsl) by (rewrite map_length, map2_length; lia).
  destruct (waa_of trsl bl (map wn (map2 n_sub trsl bl))) as [w|e] eqn:EW.
  2:{ rewrite (Herr e eq_refl) in ER. discriminate. }
  destruct (Hok w eq_refl) as (R' & ER' & LR & HR). { rewrite (HL _ _ _ EW LA). exact LA. }
  rewrite ER in ER'. injection ER' as <-. split; auto. intros i Hi. rewrite HR by auto. split.
  - destruct (wn_ok (n_sub (atten trsl bl i) (get n_nan w i))) as [N _].
    apply (rt_range S L sane); auto. unfold missing. congruence.
  - intros M. apply (rt_zero S L pz); auto. rewrite wn_nan; [apply (eqb_0_0 S)|].
    apply sub_nan_l. unfold atten. apply sub_nan_l. exact M.
Qed.
End Any.

Lemma schleiss_length {O : numops} (rsl bl wet : list O) m dt tau w :
  waa_schleiss_2013 rsl bl wet m dt tau = Ok w -> length w = length rsl.
Proof.
  unfold waa_schleiss_2013. destruct (_ && _) eqn:E; [|discriminate]. apply andb_prop in E as [E1 E2].
  apply Nat.eqb_eq in E1, E2. intros H.
  destruct (n_eqb tau (n_ofZ 0)) eqn:Z.
  - destruct (forallb (fun i => negb (n_eqb (get n_nan wet i) (n_ofZ 1))) (seq 1 (length rsl - 1))) eqn:F.
    + rewrite forallb_forall in F.
      destruct (schleiss_loop rsl bl wet m dt tau E1 E2) as (w' & EW & LW & _).
      { intros _ i Hi Q. unfold flag_is_one in Q. specialize (F i ltac:(apply in_seq; lia)). rewrite Q in F. discriminate. }
      unfold waa_schleiss_2013 in EW. rewrite E1, E2, !Nat.eqb_refl in EW. simpl andb in EW. cbv iota in EW.
      rewrite H in EW. injection EW as ->. exact LW.
    + exfalso. apply not_true_iff_false in F. apply F. apply forallb_forall. intros i Hi. apply in_seq in Hi.
      destruct (n_eqb (get n_nan wet i) (n_ofZ 1)) eqn:Q; auto. exfalso.
      assert (EE : waa_schleiss_2013 rsl bl wet m dt tau = Err ZeroDivisionError).
      { apply schleiss_zero_div; auto. exists i. split; [lia|exact Q]. }
      unfold waa_schleiss_2013 in EE. rewrite E1, E2, !Nat.eqb_refl in EE. simpl andb in EE. cbv iota in EE. congruence.
  - destruct (schleiss_loop rsl bl wet m dt tau E1 E2) as (w' & EW & LW & _); [intros; congruence|].
    unfold waa_schleiss_2013 in EW. rewrite E1, E2, !Nat.eqb_refl in EW. simpl andb in EW. cbv iota in EW.
    rewrite H in EW. injection EW as ->. exact LW.
Qed.

Local Open Scope R_scope.

(** ** exact arithmetic *)
Lemma above_mono R_min r s : 0 <= r -> r <= s -> above R_min r <= above R_min s.
Proof.
  intros. unfold above. destruct (Rlt_dec r R_min), (Rlt_dec s R_min); lra.
Qed.

Lemma above_range R_min r : 0 <= r -> 0 <= above R_min r <= r.
Proof. intros. unfold above. destruct (Rlt_dec r R_min); lra. Qed.

Lemma rain_of_nonneg a b l x : 0 <= rain_of a b l x.
Proof. unfold rain_of. destruct (Req_EM_T x 0); [lra|]. pose proof (exp_pos (1 / b * ln (x / (a * l)))). unfold Rpower. lra. Qed.

Lemma rain_of_mono a b l x y : 0 < a -> 0 < b -> 0 < l -> 0 <= x -> x <= y -> rain_of a b l x <= rain_of a b l y.
Proof.
  intros Ha Hb Hl Hx Hxy. destruct (Req_EM_T x 0) as [->|N].
  - unfold rain_of at 1. destruct (Req_EM_T 0 0); [|lra]. apply rain_of_nonneg.
  - unfold rain_of. destruct (Req_EM_T x 0); [lra|]. destruct (Req_EM_T y 0); [lra|].
    assert (0 < a * l) by (apply Rmult_lt_0_compat; auto).
    apply Rle_Rpower_l.
    + left. apply Rdiv_lt_0_compat; lra.
    + split; [apply Rdiv_lt_0_compat; lra|]. apply Rmult_le_compat_r; [left; apply Rinv_0_lt_compat; auto|auto].
Qed.

Lemma rate_rain a b l R_min x : 0 < a -> 0 < b -> 0 < l -> 0 <= x ->
  rate XRm (n_mul (XFin a : XR) (XFin l : XR)) (n_div (n_ofZ 1 : XR) (XFin b : XR)) (XFin R_min : XR) (XFin x : XR)
  = (XFin (above R_min (rain_of a b l x)) : XR).
Proof.
  intros Ha Hb Hl Hx. assert (P : 0 < a * l) by (apply Rmult_lt_0_compat; auto).
  change (n_mul (XFin a : XR) (XFin l : XR)) with (XFin (a * l) : XR).
  replace (n_div (n_ofZ 1 : XR) (XFin b : XR)) with (XFin (1 / b) : XR).
  2:{ symmetry. change (xdiv (XFin 1) (XFin b) = XFin (1 / b)). apply xdiv_fin. lra. }
  assert (I : 0 < 1 / b) by (apply Rdiv_lt_0_compat; lra).
  unfold above, rain_of. destruct (Req_EM_T x 0) as [->|N].
  - rewrite rate_exact_0 by auto. destruct (Rlt_dec 0 R_min); reflexivity.
  - rewrite rate_exact_pos by lra. destruct (Rlt_dec (Rpower (x / (a * l)) (1 / b)) R_min); [rewrite Rlt_bool_true by auto|rewrite Rlt_bool_false by lra]; reflexivity.
Qed.

Lemma wn_XR (x : XR) : wn x = match (x : xr) with XFin r => (XFin (if Rle_bool 0 r then r else 0) : XR) | XPInf => (XPInf : XR) | _ => (XFin 0 : XR) end.
Proof.
  unfold wn. destruct x as [| |r|]; try reflexivity.
  change (n_leb (zero : XR) (XFin r : XR)) with (Rle_bool 0 r). destruct (Rle_bool 0 r); reflexivity.
Qed.

(** a chain given frequency and polarisation is the chain given coefficients *)
Lemma obs_chain_freq cubic waa_of (trsl wet : list XR) n f pol l R_min a b :
  0 < b -> a_b cubic [XFin (f / 10 ^ 9) : XR] (PolStr pol) "ITU_2005" = Ok ([XFin a : XR], [XFin b : XR]) ->
  obs_chain XRm cubic waa_of trsl wet n (link_args (XFin f : XR) pol (XFin l : XR) (XFin R_min : XR)) =
  obs_chain XRm cubic waa_of trsl wet n (mk_kr_args (XFin l : XR) None None (Some (CScalar (XFin a : XR))) (Some (CScalar (XFin b : XR))) "ITU_2005" (XFin R_min : XR)).
Proof.
  intros Hb E. unfold obs_chain. destruct (baseline_constant trsl wet n); cbn [bind]; auto.
  destruct (waa_of _ _ _); cbn [bind]; auto. unfold rain_rate, link_args. cbn [kr_len kr_f kr_pol kr_a kr_b kr_approx kr_min].
  replace (n_div (XFin f : XR) (n_ofZ (10 ^ 9) : XR)) with (XFin (f / 10 ^ 9) : XR).
  - apply (calc_single_freq XRsem); [apply pos_XR; auto|]. exact E.
  - symmetry. change (xdiv (XFin f) (XFin (IZR (10 ^ 9))) = XFin (f / 10 ^ 9)). rewrite xdiv_fin.
    + f_equal. f_equal. simpl. lra.
    + simpl. lra.
Qed.

Lemma pastorek_chain_exact cubic (f l A_max zeta d R_min : R) pol :
  exact_cubic cubic -> 1 <= f / 10 ^ 9 <= 100 -> horizontal pol \/ vertical pol ->
  0 < l -> 0 < A_max -> 0 < zeta -> 0 < d ->
  exists (a b amax : R) (h : R -> R),
    a_b cubic [XFin (f / 10 ^ 9) : XR] (PolStr pol) "ITU_2005" = Ok ([XFin a : XR], [XFin b : XR]) /\ 0 < a /\ 0 < b /\
    1000 <= amax /\
    (forall x, x <= 0 -> h x = 0) /\
    (forall x y, x <= y -> y <= amax -> h x <= h y) /\
    (forall x, 0 <= x <= amax -> 0 <= h x <= rain_of a b l x) /\
    (forall i, (i < 100)%nat -> let r := rain_of a b l (table_rain i) in R_min <= r -> h (table_rain i + wet_antenna A_max zeta d r) = r) /\
    forall (trsl wet : list XR) n bl,
      (1 <= n)%nat -> length wet = length trsl -> baseline_constant trsl wet n = Ok bl ->
      let run := pastorek_chain XRm cubic trsl wet n (XFin f : XR) pol (XFin l : XR) (XFin A_max : XR) (XFin zeta : XR) (XFin d : XR) (XFin R_min : XR) in
      ((exists i, (i < length trsl)%nat /\ n_ltb (XFin amax : XR) (atten trsl bl i) = true) -> run = Err ValueError) /\
      ((forall i, (i < length trsl)%nat -> n_ltb (XFin amax : XR) (atten trsl bl i) = false) ->
        exists R, run = Ok R /\ length R = length trsl /\
        forall i, (i < length trsl)%nat -> get n_nan R i =
          match (atten trsl bl i : xr) with XFin x => (XFin (h x) : XR) | _ => (XFin 0 : XR) end).
Proof.
  intros HC Hf Hp Hl HA Hz Hd.
  destruct (from_A_obs_exact cubic f l A_max zeta d pol HC Hf Hp Hl HA Hz Hd)
    as (a & b & amax & g & Eab & Ha & Hb & Hm & g0 & gmono & grange & gnode & grun).
  set (h := fun x => if Rle_bool x 0 then 0 else above R_min (rain_of a b l (x - g x))).
  assert (H0 : forall x, 0 <= x -> h x = above R_min (rain_of a b l (x - g x))).
  { intros x Hx. unfold h. destruct (Rle_bool_spec x 0); auto. assert (x = 0) as -> by lra.
    rewrite g0. replace (0 - 0) with 0 by ring. unfold rain_of, above. destruct (Req_EM_T 0 0); [|lra]. destruct (Rlt_dec 0 R_min); auto. }
  exists a, b, amax, h. split; [exact Eab|]. split; [auto|]. split; [auto|]. split; [auto|].
  split; [|split; [|split; [|split]]].
  - intros x Hx. unfold h. rewrite Rle_bool_true by auto. reflexivity.
  - intros x y Hxy Hy. destruct (Rle_lt_dec x 0).
    + unfold h at 1. rewrite Rle_bool_true by auto. destruct (Rle_lt_dec y 0).
      * unfold h. rewrite Rle_bool_true by auto. lra.
      * rewrite H0 by lra. apply above_range. apply rain_of_nonneg.
    + rewrite !H0 by lra. apply above_mono; [apply rain_of_nonneg|].
      apply rain_of_mono; auto; [destruct (grange x); lra|]. apply gmono; lra.
  - intros x Hx. rewrite H0 by lra. split; [apply above_range; apply rain_of_nonneg|]. eapply Rle_trans; [apply above_range; apply rain_of_nonneg|].
    destruct (grange x ltac:(lra)). apply rain_of_mono; auto; lra.
  - intros i Hi. cbv zeta. intros Hr. rewrite H0.
    + rewrite gnode by auto. match goal with |- context [?u + ?v - ?v] => replace (u + v - v) with u by ring end.
      unfold above. destruct (Rlt_dec _ R_min); [lra|reflexivity].
    + apply Rplus_le_le_0_compat; [destruct (table_pos i); auto|].
      destruct (wet_antenna_props A_max zeta d HA Hz Hd) as (WZ & WR & _). apply WR. apply rain_of_nonneg.
  - intros trsl wet n bl H H1 H2. cbv zeta. split; [intros (i & Hi & Hlt)|intros Hle].
  { unfold pastorek_chain. rewrite (obs_chain_freq _ _ _ _ _ _ _ _ _ a b Hb Eab).
    match goal with |- obs_chain _ _ ?W _ _ _ ?K = _ =>
      destruct (obs_chain_run XRsem XRm cubic W trsl wet n K (XFin a : XR) (XFin b : XR) eq_refl eq_refl eq_refl eq_refl (pos_XR b Hb) H H1)
        as (bl' & EB & LB & Herr & _) end.
    rewrite H2 in EB. injection EB as <-. apply Herr.
    apply (grun (map wn (map2 n_sub trsl bl))).
    exists (wn (atten trsl bl i)). split.
    + apply in_map. replace (atten trsl bl i) with (get n_nan (map2 n_sub trsl bl) i).
      * apply (get_In n_nan (map2 n_sub trsl bl) i). rewrite map2_length; lia.
      * unfold atten. rewrite get_map2 with (da := n_nan) (db := n_nan) by lia. reflexivity.
    + rewrite wn_XR. destruct (atten trsl bl i) as [| |x|]; try discriminate; auto.
      change (Rlt_bool amax x = true) in Hlt. destruct (Rlt_bool_spec amax x); [|discriminate].
      rewrite Rle_bool_true by lra. apply Rlt_bool_true. auto. }
    unfold pastorek_chain. rewrite (obs_chain_freq _ _ _ _ _ _ _ _ _ a b Hb Eab).
    match goal with |- exists R, obs_chain _ _ ?W _ _ _ ?K = _ /\ _ =>
      destruct (obs_chain_run XRsem XRm cubic W trsl wet n K (XFin a : XR) (XFin b : XR) eq_refl eq_refl eq_refl eq_refl (pos_XR b Hb) H H1)
        as (bl' & EB & LB & _ & Hok) end.
    rewrite H2 in EB. injection EB as <-.
    destruct (Hok (map (on_number g) (map wn (map2 n_sub trsl bl)))) as (R & ER & LR & HR).
    + apply grun. intros x Hx. apply in_map_iff in Hx as (y & <- & Hy).
      apply In_get with (d := (n_nan : XR)) in Hy as (i & Hi & <-). rewrite map2_length in Hi by lia.
      specialize (Hle i ltac:(lia)). unfold atten in Hle. rewrite get_map2 with (da := n_nan) (db := n_nan) by lia.
      rewrite wn_XR. generalize dependent (n_sub (get (n_nan : XR) trsl i) (get (n_nan : XR) bl i)). intros v Hle.
      destruct v as [| |x|].
      * split; apply Rlt_bool_false; lra.
      * split; apply Rlt_bool_false; lra.
      * change (Rlt_bool amax x = false) in Hle. destruct (Rlt_bool_spec amax x); [discriminate|].
        split; apply Rlt_bool_false; destruct (Rle_bool_spec 0 x); lra.
      * discriminate Hle.
    + rewrite !map_length, map2_length; lia.
    + exists R. split; auto. split; auto. intros i Hi. rewrite HR by auto.
      assert (L2 : length (map2 n_sub trsl bl) = length trsl) by (rewrite map2_length; lia).
      rewrite !get_map with (d := n_nan) by (rewrite ?map_length; lia).
      rewrite get_map2 with (da := n_nan) (db := n_nan) by lia. fold (atten trsl bl i).
      specialize (Hle i Hi). rewrite (wn_XR (atten trsl bl i)).
      unfold rt. cbn [kr_len kr_min].
      destruct (atten trsl bl i) as [| |x|] eqn:EA; try discriminate Hle.
      * replace (wn _) with (XFin 0 : XR) by reflexivity. rewrite rate_rain by (auto; lra).
        unfold rain_of, above. destruct (Req_EM_T 0 0); [|lra]. destruct (Rlt_dec 0 R_min); reflexivity.
      * replace (wn _) with (XFin 0 : XR) by reflexivity. rewrite rate_rain by (auto; lra).
        unfold rain_of, above. destruct (Req_EM_T 0 0); [|lra]. destruct (Rlt_dec 0 R_min); reflexivity.
      * change (Rlt_bool amax x = false) in Hle. destruct (Rlt_bool_spec amax x); [discriminate|].
        set (u := if Rle_bool 0 x then x else 0).
        assert (U : 0 <= u <= amax) by (unfold u; destruct (Rle_bool_spec 0 x); lra).
        change (n_sub (XFin x : XR) (on_number g (XFin u : XR))) with (XFin (x - g u) : XR).
        rewrite wn_XR. destruct (grange u U) as [G _]. unfold u in *. clear u.
        destruct (Rle_bool_spec 0 x).
        -- rewrite Rle_bool_true by lra. rewrite rate_rain by (auto; lra). rewrite H0 by lra. reflexivity.
        -- rewrite Rle_bool_false by lra. rewrite rate_rain by (auto; lra).
           unfold h. rewrite Rle_bool_true by lra.
           unfold rain_of, above. destruct (Req_EM_T 0 0); [|lra]. destruct (Rlt_dec 0 R_min); reflexivity.
Qed.

Lemma leijnse_chain_exact search : bracketing search ->
  forall cubic f l T gamma delta na la pol R_min,
  exact_cubic cubic -> 1 <= f / 10 ^ 9 <= 100 -> horizontal pol \/ vertical pol ->
  0 < l -> 0 < T <= 339 -> 0 < fst na -> 0 <= snd na -> 0 <= la ->
  exists (a b : R),
    a_b cubic [XFin (f / 10 ^ 9) : XR] (PolStr pol) "ITU_2005" = Ok ([XFin a : XR], [XFin b : XR]) /\ 0 < a /\ 0 < b /\
    let waa i := waa_formula (rain_of a b l (table_rain i)) f T gamma delta na la in
    let obs i := table_rain i + waa i in
    0 <= obs 99%nat -> forall (trsl wet : list XR) n bl,
      (1 <= n)%nat -> length wet = length trsl -> baseline_constant trsl wet n = Ok bl ->
      let run := leijnse_chain search cubic trsl wet n f pol l T gamma delta na la R_min in
      ((exists i, (i < length trsl)%nat /\ n_ltb (XFin (obs 99%nat) : XR) (atten trsl bl i) = true) -> run = Err ValueError) /\
      ((forall i, (i < length trsl)%nat -> n_ltb (XFin (obs 99%nat) : XR) (atten trsl bl i) = false) ->
        exists R, run = Ok R /\ length R = length trsl /\
        forall i, (i < length trsl)%nat ->
          match (atten trsl bl i : xr) with
          | XFin x => exists y, on_polygon obs waa 99 (Rmax x 0) y /\ get n_nan R i = (XFin (above R_min (rain_of a b l (Rmax (x - y) 0))) : XR)
          | _ => get n_nan R i = (XFin 0 : XR)
          end).
Proof.
  intros HS cubic f l T gamma delta na la pol R_min HC Hf Hp Hl HT Hn1 Hn2 Hla.
  destruct (leijnse_from_A_obs search HS cubic f l T gamma delta na la pol HC Hf Hp Hl HT Hn1 Hn2 Hla)
    as (a & b & Eab & Ha & Hb & _ & grun).
  exists a, b. split; [exact Eab|]. split; [auto|]. split; [auto|]. cbv zeta in *.
  set (waa := fun i => waa_formula (rain_of a b l (table_rain i)) f T gamma delta na la) in *.
  set (obs := fun i => table_rain i + waa i).
  fold (waa 99%nat) in *. fold (obs 99%nat) in *.
  intros Hpos trsl wet n bl H H1 H2.
  unfold leijnse_chain. rewrite (obs_chain_freq _ _ _ _ _ _ _ _ _ a b Hb Eab).
  match goal with |- context [obs_chain _ _ ?W _ _ _ ?K] =>
    destruct (obs_chain_run XRsem XRm cubic W trsl wet n K (XFin a : XR) (XFin b : XR) eq_refl eq_refl eq_refl eq_refl (pos_XR b Hb) H H1)
      as (bl' & EB & LB & Herr & Hok) end.
  rewrite H2 in EB. injection EB as <-.
  assert (L2 : length (map2 n_sub trsl bl) = length trsl) by (rewrite map2_length; lia).
  assert (LW : length (map wn (map2 n_sub trsl bl)) = length trsl) by (rewrite map_length; exact L2).
  assert (GA : forall i, (i < length trsl)%nat -> get n_nan (map2 n_sub trsl bl) i = atten trsl bl i).
  { intros i Hi. unfold atten. rewrite get_map2 with (da := n_nan) (db := n_nan) by lia. reflexivity. }
  destruct (grun (map wn (map2 n_sub trsl bl))) as (_ & gerr & gok). split.
  - intros (i & Hi & Hlt). apply Herr. apply gerr.
    exists (wn (atten trsl bl i)). split.
    + apply in_map. rewrite <- GA by auto. apply (get_In n_nan (map2 n_sub trsl bl) i). lia.
    + rewrite wn_XR. destruct (atten trsl bl i) as [| |x|]; try discriminate; auto.
      change (Rlt_bool (obs 99%nat) x = true) in Hlt. destruct (Rlt_bool_spec (obs 99%nat) x); [|discriminate].
      rewrite Rle_bool_true by lra. apply Rlt_bool_true. auto.
  - intros Hle. destruct gok as (w & Ew & Lw & gw).
    { intros x Hx. apply in_map_iff in Hx as (y & <- & Hy).
      apply In_get with (d := (n_nan : XR)) in Hy as (i & Hi & <-). rewrite GA by lia.
      specialize (Hle i ltac:(lia)). rewrite wn_XR. generalize dependent (atten trsl bl i). intros v Hle.
      destruct v as [| |x|].
      - split; apply Rlt_bool_false; lra.
      - split; apply Rlt_bool_false; lra.
      - change (Rlt_bool (obs 99%nat) x = false) in Hle. destruct (Rlt_bool_spec (obs 99%nat) x); [discriminate|].
        split; apply Rlt_bool_false; destruct (Rle_bool_spec 0 x); lra.
      - discriminate Hle. }
    destruct (Hok w Ew) as (R & ER & LR & HR). { lia. }
    exists R. split; auto. split; auto. intros i Hi. rewrite HR by auto.
    specialize (gw i ltac:(lia)). unfold xat in gw.
    rewrite get_map with (d := (n_nan : XR)) in gw by lia. rewrite GA in gw by auto. rewrite wn_XR in gw.
    specialize (Hle i Hi). unfold rt. cbn [kr_len kr_min].
    destruct (atten trsl bl i) as [| |x|] eqn:EA.
    + replace (wn _) with (XFin 0 : XR) by reflexivity. rewrite rate_rain by (auto; lra).
      unfold rain_of, above. destruct (Req_EM_T 0 0); [|lra]. destruct (Rlt_dec 0 R_min); reflexivity.
    + destruct gw as (y & Gy & _). rewrite Gy. replace (wn _) with (XFin 0 : XR) by reflexivity. rewrite rate_rain by (auto; lra).
      unfold rain_of, above. destruct (Req_EM_T 0 0); [|lra]. destruct (Rlt_dec 0 R_min); reflexivity.
    + destruct gw as (y & Gy & P & _). rewrite Gy. exists y. split.
      * replace (Rmax x 0) with (if Rle_bool 0 x then x else 0); [exact P|].
        destruct (Rle_bool_spec 0 x); [rewrite Rmax_left by lra|rewrite Rmax_right by lra]; auto.
      * change (n_sub (XFin x : XR) (XFin y : XR)) with (XFin (x - y) : XR). rewrite wn_XR.
        replace (if Rle_bool 0 (x - y) then x - y else 0) with (Rmax (x - y) 0).
        -- rewrite rate_rain by (auto; apply Rmax_r). reflexivity.
        -- destruct (Rle_bool_spec 0 (x - y)); [rewrite Rmax_left by lra|rewrite Rmax_right by lra]; auto.
    + discriminate Hle.
Qed.

Lemma schleiss_never_missing (L : libm F64) cubic (trsl wet : list F64) n m dt tau (k : kr_args F64) R :
  pow_sane L -> pow_zero L -> plain_coefficients k -> (1 <= n)%nat -> length wet = length trsl ->
  schleiss_chain L cubic trsl wet n m dt tau k = Ok R ->
  length R = length trsl /\
  forall i, (i < length trsl)%nat -> nonneg (get n_nan R i) /\
    (missing (get n_nan trsl i) -> n_eqb (get n_nan R i) (n_ofZ 0) = true).
Proof.
  intros sane pz P Hn Hw ER. apply (obs_chain_never_missing F64sem L cubic _ trsl wet n k R sane pz P Hn Hw) in ER; auto.
  intros bl A w E LA. apply schleiss_length in E. lia.
Qed.

Lemma pastorek_chain_case :
  exists a b r, 0 < a /\ 0 < b /\ 0 <= r <= rain_of a b 10 10 /\
  pastorek_chain XRm exact_spline [XFin 50 : XR; XFin 60 : XR; XFin 40 : XR; XNaN : XR] [XFin 0 : XR; XFin 1 : XR; XFin 1 : XR; XFin 1 : XR] 1
    (XFin (20 * 10 ^ 9) : XR) "H" (XFin 10 : XR) (XFin 14 : XR) (XFin 0.55 : XR) (XFin 0.1 : XR) (XFin 0.1 : XR)
  = Ok [XFin 0 : XR; XFin r : XR; XFin 0 : XR; XFin 0 : XR].
Proof.
  destruct (pastorek_chain_exact exact_spline (20 * 10 ^ 9) 10 14 0.55 0.1 0.1 "H" exact_spline_ok)
    as (a & b & amax & h & _ & Ha & Hb & Hm & h0 & _ & hr & _ & run); try lra.
  { left. right. left. reflexivity. }
  set (trsl := [XFin 50 : XR; XFin 60 : XR; XFin 40 : XR; XNaN : XR]) in *.
  set (wet := [XFin 0 : XR; XFin 1 : XR; XFin 1 : XR; XFin 1 : XR]).
  assert (EB : baseline_constant trsl wet 1 = Ok [XFin 50 : XR; XFin 50 : XR; XFin 50 : XR; XFin 50 : XR]).
  { assert (T0 : n_truthy (XFin 0 : XR) = false) by (change (negb (Req_bool 0 0) = false); rewrite Req_bool_true; auto).
    assert (T1 : n_truthy (XFin 1 : XR) = true) by (change (negb (Req_bool 1 0) = true); rewrite Req_bool_false; auto; lra).
    unfold baseline_constant, wet. cbn [length map]. rewrite T0, T1.
    cbn -[n_mean]. unfold n_mean, n_sum. cbn. rewrite Req_bool_false by lra.
    repeat f_equal; lra. }
  exists a, b, (h 10). split; auto. split; auto. split; [apply hr; lra|].
  destruct (run trsl wet 1%nat _ ltac:(lia) eq_refl EB) as [_ Hok].
  assert (A0 : atten trsl [XFin 50 : XR; XFin 50 : XR; XFin 50 : XR; XFin 50 : XR] 0 = (XFin (50 - 50) : XR)) by reflexivity.
  assert (A1 : atten trsl [XFin 50 : XR; XFin 50 : XR; XFin 50 : XR; XFin 50 : XR] 1 = (XFin (60 - 50) : XR)) by reflexivity.
  assert (A2 : atten trsl [XFin 50 : XR; XFin 50 : XR; XFin 50 : XR; XFin 50 : XR] 2 = (XFin (40 - 50) : XR)) by reflexivity.
  assert (A3 : atten trsl [XFin 50 : XR; XFin 50 : XR; XFin 50 : XR; XFin 50 : XR] 3 = (XNaN : XR)) by reflexivity.
  destruct Hok as (R & ER & LR & HR).
  { intros i Hi. change (i < 4)%nat in Hi. destruct i as [|[|[|[|]]]]; [rewrite A0|rewrite A1|rewrite A2|rewrite A3; reflexivity|lia];
    apply Rlt_bool_false; lra. }
  rewrite ER. f_equal. change (length R = 4%nat) in LR.
  pose proof (HR 0%nat ltac:(simpl; lia)) as G0. pose proof (HR 1%nat ltac:(simpl; lia)) as G1.
  pose proof (HR 2%nat ltac:(simpl; lia)) as G2. pose proof (HR 3%nat ltac:(simpl; lia)) as G3.
  rewrite A0 in G0. rewrite A1 in G1. rewrite A2 in G2. rewrite A3 in G3.
  rewrite (h0 (50 - 50)) in G0 by lra. rewrite (h0 (40 - 50)) in G2 by lra. replace (60 - 50) with 10 in G1 by lra.
  destruct R as [|r0 [|r1 [|r2 [|r3 [|]]]]]; try discriminate LR.
  cbn [get nth] in G0, G1, G2, G3. unfold get in G0, G1, G2, G3. cbn [nth] in G0, G1, G2, G3. rewrite G0, G1, G2, G3. reflexivity.
Qed.
