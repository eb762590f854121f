(** * The map in binary64 is close to the map in exact arithmetic: the values *)
From Coq Require Import Reals Lra Lia ZArith Bool Psatz List Permutation Arith.
From Flocq Require Import Core Relative IEEE754.BinarySingleNaN.
From Verif Require Import Base Num NumF64 NumList NpOps RealStat RealSpec Libm Libm64 Ulp64 Idw_model Idw_spec HaversineFloat_spec HaversineFloat_proofs HaversineFloat_proofs2 HaversineAcc_proofs FloatErr_spec FloatErr_proofs
  Idw_proofs Idw_proofs3 IdwSym_proofs IdwFloat_proofs StatsErr_proofs RainFloat_spec RainFloat_proofs SumFloat_proofs IdwSymFloat_spec IdwSymFloat_proofs IdwAcc_spec IdwAcc_proofs.
Import ListNotations.
Local Open Scope R_scope.
Local Arguments bpow : simpl never.
Local Notation u := u64.
Local Notation dflt := ((n_nan, n_nan) : place).

Lemma filter_used {O : numops} (f : nat -> O) (used : list nat) (pad : O) n m : (forall i, In i used -> (i < n)%nat) ->
  filter (fun e : O * nat => Nat.ltb (snd e) n) (map (fun i => (f i, i)) used ++ repeat (pad, n) m) = map (fun i => (f i, i)) used.
Proof.
  intros H. induction used as [|i us IH].
  - cbn [map app]. induction m as [|m IH]; [reflexivity|]. cbn [repeat filter snd]. rewrite Nat.ltb_irrefl. exact IH.
  - cbn [map app filter snd]. destruct (Nat.ltb_spec i n) as [_|Q]; [|pose proof (H i (or_introl eq_refl)); lia].
    f_equal. apply IH. intros j J. apply H. right; auto.
Qed.
Lemma idw_one_used (L : libm F64) (z : list F64) p (f : nat -> F64) used pad m : (forall i, In i used -> (i < length z)%nat) ->
  let row := map (fun i => (f i, i)) used in
  idw_one L z p (row ++ repeat (pad, length z) m) =
  match used with [] => n_nan | i0 :: _ => if n_ltb (f i0) (n_lit 1 10) then nget z i0 else n_sum (map (term L z p row) row) end.
Proof.
  intros H row. assert (F : filter (fun e : F64 * nat => Nat.ltb (snd e) (length z)) (row ++ repeat (pad, length z) m) = row) by (exact (filter_used f used pad (length z) m H)).
  unfold idw_one. rewrite F. clear F. destruct used as [|i0 us]; [reflexivity|]. assert (ER : row = (f i0, i0) :: map (fun i => (f i, i)) us) by reflexivity.
  clearbody row. destruct row as [|[d0 j0] r]; [discriminate|]. injection ER as E1 E2 _. rewrite E1, E2. destruct (n_ltb (f i0) (n_lit 1 10)); [reflexivity|]. cbv zeta. rewrite map_map, map2_map. reflexivity.
Qed.
Lemma hit_limit : exists c, is_num (n_lit 1 10) c /\ 0 < c <= / 2 ^ 32.
Proof.
  assert (E : n_leb (n_lit 1 10 : F64) (n_div one (n_ofZ (2 ^ 32))) = true /\ n_ltb zero (n_lit 1 10 : F64) = true) by (split; vm_compute; reflexivity). destruct E as (E & E0).
  assert (D : is_num (n_div one (n_ofZ (2 ^ 32)) : F64) (rnd64 (1 / IZR (2 ^ 32)))).
  { apply is_div; [apply is_one|apply num_ofZ; lia|apply not_0_IZR; lia|]. apply Rle_trans with (2 ^ 0); [|apply pow_big; lia]. rewrite Rabs_pos_eq; simpl; lra. }
  assert (G : rnd64 (1 / IZR (2 ^ 32)) = / 2 ^ 32).
  { replace (1 / IZR (2 ^ 32)) with (/ 2 ^ 32) by (simpl; lra). rewrite <- bpow_neg. apply rnd64_generic, generic_format_bpow. unfold SpecFloat.fexp, SpecFloat.emin. lia. }
  rewrite G in D. assert (N : exists c, is_num (n_lit 1 10) c).
  { unfold n_lit. eexists. apply is_div; [apply num_ofZ; lia|apply num_ofZ; vm_compute; intuition discriminate|apply not_0_IZR; vm_compute; discriminate|].
    apply Rle_trans with (2 ^ 0); [|apply pow_big; lia]. change (10 ^ Z.of_nat 10)%Z with 10000000000%Z. rewrite Rabs_pos_eq; simpl; lra. }
  destruct N as (c & C). exists c. split; [exact C|]. rewrite (num_ltb _ _ _ _ is_zero C) in E0. rewrite (num_leb _ _ _ _ C D) in E.
  clear C D G. split; [revert E0; case Rlt_bool_spec; [intros H _; exact H|discriminate]|revert E; case Rle_bool_spec; [intros H _; exact H|discriminate]].
Qed.

Section One.
Variables (L : libm F64) (e : R) (X : list place) (q : place) (ub : option F64) (z : list F64) (p : F64) (pr M : R) (k : nat) (used : list nat).
Let Xr := map rpt_of X.
Let d := dist_to Xr (rpt_of q).
Let zr := map (fun x : F64 => B2R x) z.
Hypothesis (PA : pow_accurate L e) (EB : 0 <= e <= / 1000) (IP : is_num p pr) (PB : 0 <= pr <= 4) (KB : INR k <= 2 ^ 20).
Hypothesis (FX : forall x, In x X -> finite_place x) (FQ : finite_place q).
Hypothesis WA : well_apart (rpt_of q) Xr (option_map (fun w : F64 => B2R w) ub).
Hypothesis (LZ : length z = length X) (VZ : forall x, In x z -> number x /\ Rabs (B2R x) <= M) (MB : M <= 2 ^ 200).
Hypothesis NN : is_nearest d (length X) k (option_map (fun w : F64 => B2R w) ub) used.
Definition map_error : R := M * (3 * e + (21 * pr + 13 * INR k) / 2 ^ 53) + 4 * INR k / 2 ^ 1074.
Let row := map (fun i => (n_sqrt (sqdist q (get dflt X i)), i)) used.

Lemma used_lt i : In i used -> (i < length X)%nat.
Proof using NN. intros H. apply (nn_range _ _ _ _ _ NN). auto. Qed.
Lemma z_value i : In i used -> is_num (nget z i) (rget zr i) /\ Rabs (rget zr i) <= M.
Proof using NN LZ VZ.
  intros H. pose proof (used_lt i H) as I. assert (IZ : In (nget z i) z) by (apply get_In; lia). destruct (VZ _ IZ) as (N & B).
  assert (E : rget zr i = B2R (nget z i)). { unfold zr, rget, nget. apply (get_map (fun x : F64 => B2R x)). lia. }
  rewrite E. split; auto. apply number_is. auto.
Qed.
Lemma M_pos : used <> [] -> 0 <= M.
Proof using NN LZ VZ. intros H. destruct (some_in used H) as (i & Hi). destruct (z_value i Hi) as (_ & B). pose proof (Rabs_pos (rget zr i)). lra. Qed.
Lemma error_pos : used <> [] -> 0 <= map_error.
Proof using EB PB NN LZ VZ.
  intros H. pose proof (M_pos H). pose proof (pos_INR k). unfold map_error. assert (0 < 2 ^ 53) by apply pow2_pos. assert (0 < 2 ^ 1074) by apply pow2_pos.
  assert (0 <= (21 * pr + 13 * INR k) / 2 ^ 53) by (apply Rmult_le_pos; [lra|apply Rlt_le, Rinv_0_lt_compat; auto]).
  assert (0 <= 4 * INR k / 2 ^ 1074) by (apply Rmult_le_pos; [lra|apply Rlt_le, Rinv_0_lt_compat; auto]). nra.
Qed.
Lemma one_close pad m v' : is_idw d zr pr used v' ->
  (idw_one L z p (row ++ repeat (pad, length X) m) = n_nan /\ v' = n_nan) \/
  exists r r', is_num (idw_one L z p (row ++ repeat (pad, length X) m)) r /\ v' = (XFin r' : XR) /\ Rabs (r - r') <= map_error.
Proof using PA EB IP PB KB FX FQ WA LZ VZ MB NN.
  intros HI. rewrite <- LZ. unfold row. rewrite (idw_one_used L z p (fun i => n_sqrt (sqdist q (get dflt X i))) used pad m) by (intros i Hi; rewrite LZ; apply used_lt; auto). cbv beta zeta. fold row.
  assert (UC : used = [] \/ exists i0 us, used = i0 :: us) by (destruct used as [|i us]; eauto).
  destruct UC as [EU|(i0 & us & EU)]; [left; rewrite EU in HI |- *; split; [reflexivity|exact HI]|right].
  set (value := n_sum (map (term L z p row) row)).
  match goal with |- context [match used with [] => _ | i1 :: _ => @?f i1 end] => assert (EM : match used with [] => n_nan | i1 :: _ => f i1 end = f i0) by (rewrite EU; reflexivity) end.
  rewrite EM. clear EM. cbv beta.
  assert (HU : used <> []) by (rewrite EU; discriminate). pose proof (error_pos HU) as EP. pose proof (M_pos HU) as M0.
  assert (I0 : In i0 used) by (rewrite EU; left; auto).
  assert (MIN : forall i, In i used -> d i0 <= d i).
  { intros i Hi. apply In_get with (d := 0%nat) in Hi. destruct Hi as (b & Hb & <-). pose proof (nn_sorted _ _ _ _ _ NN 0 b ltac:(lia) Hb) as S. replace (get 0%nat used 0) with i0 in S by (rewrite EU; reflexivity). exact S. }
  destruct hit_limit as (c & IC & CB). pose proof u_small as U.
  assert (HI' : if Rlt_dec (d i0) (1 / 10000000000) then v' = (XFin (rget zr i0) : XR)
      else exists r, v' = (XFin r : XR) /\ (r * rsum (map (fun i => / Rpower (d i) pr) used) = rsum (map (fun i => rget zr i * / Rpower (d i) pr) used))%R).
  { rewrite EU in HI. cbn [is_idw] in HI. rewrite EU. exact HI. }
  clear HI. destruct (d_range X q ub WA i0 (used_lt i0 I0)) as [D0|D0]; fold Xr d in D0.
  - (* a station at the place *)
    rewrite D0 in HI'. destruct (Rlt_dec 0 (1 / 10000000000)) as [_|N]; [|lra].
    destruct (s_close X q ub FX FQ WA i0 (used_lt i0 I0)) as (NS & _ & C). fold Xr d in C. rewrite D0 in C. rewrite !Rmult_0_r, Rminus_0_r in C.
    pose proof (number_is _ NS) as IS. assert (S0 : B2R (sqdist q (get dflt X i0)) = 0). { destruct (Req_dec (B2R (sqdist q (get dflt X i0))) 0) as [|Q]; auto. apply Rabs_pos_lt in Q. lra. }
    rewrite S0 in IS. pose proof (is_sqrt _ 0 IS ltac:(lra) ltac:(rewrite sqrt_0; apply Rlt_le, bpow_gt_0)) as IQ. rewrite sqrt_0, rnd64_0 in IQ.
    rewrite (num_ltb _ _ _ _ IQ IC), Rlt_bool_true by lra. destruct (z_value i0 I0) as (Z & _). exists (rget zr i0), (rget zr i0). split; [exact Z|]. split; [exact HI'|]. rewrite Rminus_eq_0, Rabs_R0. exact EP.
  - assert (RNG : forall i, In i used -> / 2 ^ 30 <= d i <= 2 ^ 40).
    { intros i Hi. destruct (d_range X q ub WA i (used_lt i Hi)) as [Q|Q]; fold Xr d in Q; auto. pose proof (MIN i Hi). pose proof (ipow2_pos 30). lra. }
    assert (DC : forall i, In i used -> exists s, is_num (n_sqrt (sqdist q (get dflt X i))) s /\ Rabs (s - d i) <= 8 * u * d i).
    { intros i Hi. pose proof (used_lt i Hi) as Li. pose proof (RNG i Hi) as R. unfold d, Xr in R |- *. rewrite (d_get X q) in R |- * by auto. apply distance_close; auto. apply FX, get_In. auto. }
    destruct (Rlt_dec (d i0) (1 / 10000000000)) as [N|_]. { exfalso. assert (1 / 10000000000 < / 2 ^ 30) by (simpl; lra). lra. }
    destruct HI' as (r' & -> & HA).
    assert (LT : n_ltb (n_sqrt (sqdist q (get dflt X i0))) (n_lit 1 10) = false).
    { destruct (DC i0 I0) as (s & S & B). rewrite (num_ltb _ _ _ _ S IC). apply Rlt_bool_false. apply Rabs_le_inv in B. assert (/ 2 ^ 32 <= 0.5 * / 2 ^ 30) by (simpl; lra). pose proof (ipow2_pos 30). nra. }
    rewrite LT.
    assert (LR : length row = length used) by apply map_length. pose proof (le_INR _ _ (nn_count _ _ _ _ _ NN)) as LK.
    assert (WC : forall e0, In e0 row -> In (snd e0) used /\ exists r, is_num (m_pow L (fst e0) p) r /\ / 2 ^ 200 <= r <= 2 ^ 200 /\
      exists w, is_num (n_div one (m_pow L (fst e0) p)) w /\ Rabs (w - / Rpower (d (snd e0)) pr) <= 1.1 * (e + 9 * pr * u + u) * / Rpower (d (snd e0)) pr).
    { intros e0 H0. unfold row in H0. apply in_map_iff in H0. destruct H0 as (i & <- & Hi). cbn [fst snd]. split; auto. destruct (DC i Hi) as (s & S & B). apply (weight_close L e _ p (d i) s pr); auto. }
    destruct (row_close L z p row) with (lo := - M) (hi := M) (M := M) as (r & IR & CR & _).
    + intros H. apply HU. exact (map_eq_nil _ _ H).
    + rewrite LR. lra.
    + intros e0 H0. destruct (WC e0 H0) as (_ & r & A & B & _). eauto.
    + intros e0 H0. destruct (WC e0 H0) as (Hi & _). destruct (z_value _ Hi) as (A & B). exists (rget zr (snd e0)). split; auto. apply Rabs_le_inv in B. lra.
    + lra.
    + lra.
    + auto.
    + exists r, r'. split; [exact IR|]. split; [reflexivity|]. rewrite LR in CR.
      assert (MC : Rabs (rsum (map (fun e0 => fr (n_div one (m_pow L (fst e0) p)) / rsum (map (fun e0 => fr (n_div one (m_pow L (fst e0) p))) row) * fr (nget z (snd e0))) row) - r') <= 2.1 * (1.1 * (e + 9 * pr * u + u)) * M).
      { assert (PU : 0 <= pr * u <= 4 * u) by nra.
        apply (means_close (fun e0 => fr (n_div one (m_pow L (fst e0) p))) (fun e0 => / Rpower (d (snd e0)) pr) (fun e0 => fr (nget z (snd e0))) row).
        - intros H. apply HU. exact (map_eq_nil _ _ H).
        - lra.
        - intros e0 H0. destruct (WC e0 H0) as (Hi & _ & _ & _ & w & IW & BW). split; [apply Rinv_0_lt_compat, exp_pos|]. rewrite (num_fr _ _ IW). split; [exact BW|]. destruct (z_value _ Hi) as (A & B). rewrite (num_fr _ _ A). exact B.
        - unfold row. rewrite !map_map. cbn [snd]. rewrite HA. f_equal. apply map_ext_in. intros i Hi. destruct (z_value i Hi) as (A & _). rewrite (num_fr _ _ A). reflexivity. }
      set (Q := rsum _) in CR. change (Rabs (Q - r') <= 2.1 * (1.1 * (e + 9 * pr * u + u)) * M) in MC.
      replace (r - r') with ((r - Q) + (Q - r')) by ring. eapply Rle_trans; [apply Rabs_triang|]. apply Rle_trans with (1 := Rplus_le_compat _ _ _ _ CR MC).
      assert (EE : map_error = M * (3 * e + (21 * pr + 13 * INR k) * u) + 4 * INR k * n0).
      { unfold map_error. rewrite n0_pow, u64_val, pow_IZR. unfold Rdiv. change (2 ^ Z.of_nat 53)%Z with (2 ^ 53)%Z. ring. }
      rewrite EE. pose proof n0_pos as N0. assert (K1 : 1 <= INR (length used)) by (apply ge1; auto).
      assert (A1 : INR (length used) * n0 <= INR k * n0) by (apply Rmult_le_compat_r; lra).
      assert (UM : 0 <= u * M) by nra. assert (A2 : INR (length used) * (u * M) <= INR k * (u * M)) by (apply Rmult_le_compat_r; lra). assert (A3 : 0 <= pr * (u * M)) by nra. assert (A4 : 0 <= e * M) by nra.
      assert (A5 : 1 * (u * M) <= INR k * (u * M)) by (apply Rmult_le_compat_r; lra).
      clear - A1 A2 A3 A4 A5 UM. lra.
Qed.
End One.

Lemma finite_num (a : place) : finite_place a -> finite_pt a = true.
Proof.
  intros ((x & X) & (y & Y)). destruct a as [a b]. cbn [fst snd] in X, Y. unfold finite_pt. cbn [fst snd].
  assert (K : forall w r, f_val w = XFin r -> n_isnan w = false /\ n_isinf w = false). { intros w r. destruct w as [s|s| |s m ee B]; cbn; try discriminate; try (destruct s; discriminate); auto. }
  destruct (K _ _ X) as (E1 & E2), (K _ _ Y) as (E3 & E4). rewrite E1, E2, E3, E4. reflexivity.
Qed.
Lemma num_finite (a : place) : finite_pt a = true -> finite_place a.
Proof.
  destruct a as [a b]. unfold finite_pt, finite_place, number. cbn [fst snd].
  assert (K : forall w : F64, negb (n_isnan w || n_isinf w) = true -> exists r, f_val w = XFin r). { intros w. destruct w as [s|s| |s m ee B]; cbn; try discriminate; try (destruct s; discriminate); eauto. }
  intros H. apply andb_true_iff in H. destruct H as (A & B). split; apply K; auto.
Qed.

Theorem float_map_close (L : libm F64) e query query' (X qs : list place) (z : list F64) k (p : F64) pr (ub : option F64) M t :
  pow_accurate L e -> 0 <= e <= / 1000 -> search_ok query -> query_ok query' -> new_tree X = Ok t -> qs <> [] -> (2 <= k)%nat -> INR k <= 2 ^ 20 ->
  is_num p pr -> 0 <= pr <= 4 -> (forall w, ub = Some w -> number w) -> length z = length X -> (forall x, In x z -> number x /\ Rabs (B2R x) <= M) -> M <= 2 ^ 200 ->
  (forall q, In q qs -> finite_place q /\ well_apart (rpt_of q) (map rpt_of X) (option_map (fun w : F64 => B2R w) ub)) ->
  exists t' v v', new_tree (map ofP (map rpt_of X)) = Ok t' /\ snd (tree_call L query t qs z k zero p ub) = Ok v /\
    snd (tree_call XRm query' t' (map ofP (map rpt_of qs)) (ofR (map (fun x : F64 => B2R x) z)) k zero (XFin pr : XR) (ofU (option_map (fun w : F64 => B2R w) ub))) = Ok v' /\
    length v = length qs /\ length v' = length qs /\
    forall j, (j < length qs)%nat -> (nget v j = n_nan /\ get (n_nan : XR) v' j = n_nan) \/
      exists r r', is_num (nget v j) r /\ get (n_nan : XR) v' j = (XFin r' : XR) /\ Rabs (r - r') <= M * (3 * e + (21 * pr + 13 * INR k) / 2 ^ 53) + 4 * INR k / 2 ^ 1074.
Proof.
  intros PA EB Q Q' HT HQ K2 KB IP PB FU LZ VZ MB WA. set (ubr := option_map (fun w : F64 => B2R w) ub). set (Xr := map rpt_of X). set (zr := map (fun x : F64 => B2R x) z).
  assert (FX : forall x, In x X -> finite_place x).
  { unfold new_tree in HT. destruct X as [|x0 X']; [discriminate|]. destruct (forallb finite_pt (x0 :: X')) eqn:F; [|discriminate]. rewrite forallb_forall in F. intros x Hx. apply num_finite, F. auto. }
  assert (XE : X <> []) by (intros ->; discriminate HT).
  assert (HT' : exists t', new_tree (map ofP Xr) = Ok t').
  { unfold new_tree. rewrite finite_ofP. destruct (map ofP Xr) eqn:E; [|eauto]. exfalso. apply XE. unfold Xr in E. destruct X; [auto|discriminate E]. }
  destruct HT' as (t' & HT'). assert (LZr : length zr = length Xr) by (unfold zr, Xr; rewrite !map_length; auto).
  assert (QN : map rpt_of qs <> []) by (destruct qs; [congruence|discriminate]).
  destruct (idw_summary query' Xr (map rpt_of qs) zr k pr ubr t' Q' HT' LZr QN K2) as (v' & EV' & LV' & H').
  assert (EV : exists v, snd (tree_call L query t qs z k zero p ub) = Ok v).
  { assert (T : t = {| pts := X; cache := None |}). { unfold new_tree in HT. destruct X; [discriminate|]. destruct (forallb finite_pt _); [injection HT; auto|discriminate]. }
    subst t. unfold tree_call. cbn [pts cache]. rewrite LZ, Nat.eqb_refl. cbn [negb]. destruct (Nat.leb_spec k 1); [lia|].
    assert (FQ : forallb finite_pt qs = true) by (apply forallb_forall; intros q Hq; apply finite_num; apply WA; auto).
    destruct qs as [|q0 qs']; [congruence|]. rewrite FQ. cbn [snd]. eauto. }
  destruct EV as (v & EV). exists t', v, v'. rewrite map_length in LV'. destruct (tree_call_get L query X t qs z k zero p ub v HT EV) as (LV & _ & GV).
  split; [auto|split; [auto|split; [auto|split; [auto|split; [auto|]]]]].
  intros j Hj. set (q := get dflt qs j). assert (Iq : In q qs) by (apply get_In; auto). destruct (WA q Iq) as (FQ & W). fold Xr ubr in W.
  rewrite (GV j dflt Hj). fold q. destruct (H' j ltac:(rewrite map_length; auto)) as (used' & N' & I' & _).
  rewrite (get_map rpt_of dflt) in N', I' by auto. fold q in N', I'.
  assert (LX : length Xr = length X) by apply map_length.
  destruct (Q X q k ub (all_number X q ub FX FQ W) (fun w Ew => proj1 (edge X q ub FU W w Ew))) as (used & pad & N & EQ). rewrite EQ.
  assert (NN : is_nearest (dist_to Xr (rpt_of q)) (length X) k ubr used).
  { revert N. apply nearest_transfer; [apply (order_kept X q ub FX FQ W)|apply (range_kept X q ub FX FQ FU W)]. }
  assert (used' = used) as -> by (rewrite LX in N'; apply (nearest_unique (dist_to Xr (rpt_of q)) (length X) k ubr); auto; apply (d_injective X q ub W)).
  apply (one_close L e X q ub z p pr M k used PA EB IP PB KB FX FQ W LZ VZ MB NN pad (k - length used) (get (n_nan : XR) v' j) I').
Qed.

Lemma same_neighbours query (X : list place) (q : place) k (ub : option F64) : search_ok query ->
  (forall x, In x X -> finite_place x) -> finite_place q -> (forall w, ub = Some w -> number w) ->
  well_apart (rpt_of q) (map rpt_of X) (option_map (fun w : F64 => B2R w) ub) ->
  exists used ds pad, query X q k zero ub = combine ds used ++ repeat (pad, length X) (k - length used) /\ length ds = length used /\
    is_nearest (dist_to (map rpt_of X) (rpt_of q)) (length X) k (option_map (fun w : F64 => B2R w) ub) used.
Proof.
  intros Q FX FQ FU W. destruct (Q X q k ub (all_number X q ub FX FQ W) (fun w Ew => proj1 (edge X q ub FU W w Ew))) as (used & pad & N & EQ).
  exists used, (map (fun i => n_sqrt (sqdist q (get dflt X i))) used), pad. split; [|split; [apply map_length|]].
  - rewrite EQ. f_equal. clear. induction used as [|i us IH]; [reflexivity|]. cbn [map combine]. f_equal. exact IH.
  - revert N. apply nearest_transfer; [apply (order_kept X q ub FX FQ W)|apply (range_kept X q ub FX FQ FU W)].
Qed.
