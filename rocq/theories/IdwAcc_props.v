(** * Property C152: the map in binary64 is the map of exact arithmetic up to rounding *)
From Coq Require Import List ZArith Bool Reals Lra Lia.
From Flocq Require Import Core IEEE754.BinarySingleNaN.
From Verif Require Import Base Num NumF64 NumList NpOps Libm Libm64 RealSpec RealStat Ulp64 Idw_model Idw_spec Idw_proofs Idw_proofs3 HaversineFloat_spec HaversineFloat_proofs RainFloat_spec RainFloat_proofs IdwSymFloat_spec IdwSymFloat_proofs IdwAcc_spec IdwAcc_proofs IdwAcc_proofs2.
Import ListNotations.
Local Open Scope R_scope.

(** Both runs succeed, give NaN at the same places, and the other values differ by
    rounding: [k] is nnear, [e] the relative error of the power function, [pr] the
    exponent, [M] the largest station value. *)
Theorem C152_float_map_close : forall (L : libm F64) e query query' (X qs : list place) (z : list F64) k (p : F64) pr (ub : option F64) M t,
  pow_accurate L e -> 0 <= e <= / 1000 -> search_ok query -> query_ok query' -> new_tree X = Ok t -> qs <> [] -> (2 <= k)%nat -> INR k <= 2 ^ 20 ->
  is_num p pr -> 0 <= pr <= 4 -> (forall w, ub = Some w -> number w) -> length z = length X -> (forall x, In x z -> number x /\ Rabs (B2R x) <= M) -> M <= 2 ^ 200 ->
  (forall q, In q qs -> finite_place q /\ well_apart (rpt_of q) (map rpt_of X) (option_map (fun w : F64 => B2R w) ub)) ->
  exists t' v v', new_tree (map ofP (map rpt_of X)) = Ok t' /\ snd (tree_call L query t qs z k zero p ub) = Ok v /\
    snd (tree_call XRm query' t' (map ofP (map rpt_of qs)) (ofR (map (fun x : F64 => B2R x) z)) k zero (XFin pr : XR) (ofU (option_map (fun w : F64 => B2R w) ub))) = Ok v' /\
    length v = length qs /\ length v' = length qs /\
    forall j, (j < length qs)%nat -> (nget v j = n_nan /\ get (n_nan : XR) v' j = n_nan) \/
      exists r r', is_num (nget v j) r /\ get (n_nan : XR) v' j = (XFin r' : XR) /\ Rabs (r - r') <= M * (3 * e + (21 * pr + 13 * INR k) / 2 ^ 53) + 4 * INR k / 2 ^ 1074.
Proof. exact float_map_close. Qed.
Print Assumptions C152_float_map_close.

(** The stations that are used are the nearest ones in exact arithmetic. *)
Theorem C152_same_neighbours : forall query (X : list place) (q : place) k (ub : option F64), search_ok query ->
  (forall x, In x X -> finite_place x) -> finite_place q -> (forall w, ub = Some w -> number w) ->
  well_apart (rpt_of q) (map rpt_of X) (option_map (fun w : F64 => B2R w) ub) ->
  exists used ds pad, query X q k zero ub = combine ds used ++ repeat (pad, length X) (k - length used) /\ length ds = length used /\
    is_nearest (dist_to (map rpt_of X) (rpt_of q)) (length X) k (option_map (fun w : F64 => B2R w) ub) used.
Proof. exact same_neighbours. Qed.
Print Assumptions C152_same_neighbours.

(** a correctly rounded power function is accurate enough *)
Theorem C152_accurate_power_exists : pow_accurate F64cr u64.
Proof. exact F64cr_pow_accurate. Qed.
Print Assumptions C152_accurate_power_exists.

(** three stations at distances 1, 3 and 13, the last one out of reach *)
Definition C152_stations : list place := [(#1, #0); (#0, #3); (#5, #12)].
Lemma C152_apart : well_apart (rpt_of (#0, #0)) (map rpt_of C152_stations) (Some 9).
Proof.
  assert (V : forall z, (Z.abs z <= 2 ^ 53)%Z -> B2R (n_ofZ z : F64) = IZR z) by (intros z Hz; exact (SumFloat_proofs.f_val_B2R _ _ (num_ofZ z Hz))).
  assert (E : map rpt_of C152_stations = [(1, 0); (0, 3); (5, 12)] /\ rpt_of (#0, #0) = (0, 0)) by (unfold C152_stations, rpt_of; cbn [map fst snd]; split; rewrite !V by lia; reflexivity). destruct E as (-> & ->).
  assert (D1 : rdist (0, 0) (1, 0) = 1) by (unfold rdist; cbn [fst snd]; replace ((0 - 1) * (0 - 1) + (0 - 0) * (0 - 0)) with (1 * 1) by ring; apply sqrt_square; lra).
  assert (D2 : rdist (0, 0) (0, 3) = 3) by (unfold rdist; cbn [fst snd]; replace ((0 - 0) * (0 - 0) + (0 - 3) * (0 - 3)) with (3 * 3) by ring; apply sqrt_square; lra).
  assert (D3 : rdist (0, 0) (5, 12) = 13) by (unfold rdist; cbn [fst snd]; replace ((0 - 5) * (0 - 5) + (0 - 12) * (0 - 12)) with (13 * 13) by ring; apply sqrt_square; lra).
  assert (T : forall x y, x - y = 2 \/ x - y = -2 \/ x - y = 12 \/ x - y = -12 \/ x - y = 10 \/ x - y = -10 \/ x - y = -8 \/ x - y = -6 \/ x - y = 4 -> 0 <= y <= 13 -> / 2 ^ 40 * y < Rabs (x - y)).
  { intros x y H B. assert (/ 2 ^ 40 * y <= / 2 ^ 10 * 13) by (apply Rmult_le_compat; [apply Rlt_le, ipow2_pos|lra|apply IdwFloat_proofs.inv_pow_le; lia|lra]). assert (/ 2 ^ 10 * 13 < 2) by (simpl; lra).
    assert (2 <= Rabs (x - y)) by (unfold Rabs; destruct (Rcase_abs (x - y)); lra). lra. }
  constructor.
  - intros x [H|[H|[H|[]]]]; rewrite <- H; right; rewrite ?D1, ?D2, ?D3; simpl; lra.
  - intros i j Hi Hj N. cbn [length] in Hi, Hj. unfold dist_to. destruct i as [|[|[|i]]]; try lia; destruct j as [|[|[|j]]]; try lia; cbn [get nth]; rewrite ?D1, ?D2, ?D3; apply T; lra.
  - intros w H. injection H as <-. split; [simpl; lra|]. intros x [H|[H|[H|[]]]]; rewrite <- H; rewrite ?D1, ?D2, ?D3; apply T; lra.
Qed.
Example C152_case : exists t t' v v' r r', new_tree C152_stations = Ok t /\ new_tree (map ofP (map rpt_of C152_stations)) = Ok t' /\
  snd (tree_call F64cr square_search t [(#0, #0)] [#10; #20; #70] 2 zero #2 (Some #9)) = Ok [v] /\
  snd (tree_call XRm brute_query t' (map ofP (map rpt_of [(#0, #0)])) (ofR (map (fun x : F64 => B2R x) [#10; #20; #70])) 2 zero (XFin 2 : XR) (ofU (Some 9))) = Ok [v'] /\
  is_num v r /\ v' = XFin r' /\ Rabs (r - r') <= / 10 ^ 11.
Proof.
  assert (NUM : forall z, (Z.abs z <= 2 ^ 53)%Z -> is_num (n_ofZ z) (IZR z)) by (exact num_ofZ).
  assert (V : forall z, (Z.abs z <= 2 ^ 53)%Z -> B2R (n_ofZ z : F64) = IZR z) by (intros z Hz; exact (SumFloat_proofs.f_val_B2R _ _ (num_ofZ z Hz))).
  assert (NB : forall z, (Z.abs z <= 2 ^ 53)%Z -> number (n_ofZ z)) by (intros z Hz; exists (IZR z); apply NUM; auto).
  assert (HT : exists t, new_tree C152_stations = Ok t) by (eexists; reflexivity). destruct HT as (t & HT).
  destruct (C152_float_map_close F64cr u64 square_search brute_query C152_stations [(#0, #0)] [#10; #20; #70] 2 #2 2 (Some #9) 70 t) as (t' & v & v' & HT' & EV & EV' & LV & LV' & H).
  - exact F64cr_pow_accurate.
  - pose proof u_small. lra.
  - exact square_search_ok.
  - exact brute_query_ok.
  - exact HT.
  - discriminate.
  - lia.
  - simpl. lra.
  - apply NUM. lia.
  - lra.
  - intros w E. exact (eq_ind (#9 : F64) number (NB 9%Z ltac:(lia)) w (f_equal (fun o : option F64 => match o with Some x => x | None => #9 end) E)).
  - reflexivity.
  - intros x [E|[E|[E|[]]]]; rewrite <- E; (split; [apply NB; lia|rewrite V by lia; rewrite Rabs_pos_eq; lra]).
  - assert (1 <= 2 ^ 190) by (apply pow_R1_Rle; lra). replace (2 ^ 200) with (1024 * 2 ^ 190) by (change 200%nat with (10 + 190)%nat; rewrite pow_add; simpl (2 ^ 10); lra). lra.
  - intros q [E|[]]. rewrite <- E. split; [split; apply NB; lia|]. cbn [option_map]. rewrite V by lia. exact C152_apart.
  - destruct v as [|v [|]]; try discriminate LV. destruct v' as [|v' [|]]; try discriminate LV'. specialize (H 0%nat (le_n 1)). cbn [nget get nth] in H.
    cbn [option_map] in EV'. rewrite V in EV' by lia.
    assert (NX : v' <> (n_nan : XR)).
    { destruct (idw_summary brute_query (map rpt_of C152_stations) (map rpt_of [(#0, #0)]) (map (fun x : F64 => B2R x) [#10; #20; #70]) 2 2 (Some 9) t' brute_query_ok HT' eq_refl ltac:(discriminate) ltac:(lia)) as (w & EW & _ & HW).
      rewrite EV' in EW. assert (w = [v']) as -> by congruence. clear EW. destruct (HW 0%nat (le_n 1)) as (used & _ & _ & U1 & U2 & _). cbn [get nth] in U1. intros E. apply U1 in E. rewrite U2 in E. apply (E 0%nat); [cbn; lia|].
      unfold in_range. destruct (wa_edge _ _ _ C152_apart 9 eq_refl) as (_ & _). unfold dist_to, rdist, rpt_of, C152_stations. cbn [map get nth fst snd]. rewrite !V by lia.
      replace ((0 - 1) * (0 - 1) + (0 - 0) * (0 - 0)) with (1 * 1) by ring. rewrite sqrt_square; lra. }
    destruct H as [(_ & E)|(r & r' & I & E & B)]; [contradiction|]. exists t, t', v, v', r, r'. split; [exact HT|]. split; [exact HT'|]. split; [exact EV|]. split; [exact EV'|]. split; [exact I|]. split; [exact E|].
    apply Rle_trans with (1 := B). rewrite u64_val. assert (/ 2 ^ 1074 <= / 2 ^ 60) by (apply IdwFloat_proofs.inv_pow_le; lia). unfold Rdiv. set (tiny := / 2 ^ 1074) in *. clearbody tiny. simpl in *. lra.
Qed.
(** the value itself: (10 + 20 / 9) / (1 + 1 / 9) = 11 *)
Example C152_case_value : match new_tree C152_stations with Ok t => match snd (tree_call F64demo square_search t [(#0, #0)] [#10; #20; #70] 2 zero #2 (Some #9)) with Ok [v] => n_ltb (n_abs (n_sub v #11)) (n_lit 1 11) | _ => false end | Err _ => false end = true.
Proof. vm_compute. reflexivity. Qed.
