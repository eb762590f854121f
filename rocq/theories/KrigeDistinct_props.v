(** C133, C134: kriging with the spherical variogram works exactly if there is a
    nugget or all stations are at different places. *)
From Coq Require Import List ZArith Bool Reals Lra Lia.
From Verif Require Import Base Num RealSpec RealStat SpecGram_proofs5 LinAlg PosDef PosDef5 Idw_model Idw_spec Idw_proofs Kriging_model OrdKrige_model OrdKrige_spec
  OrdKrige_proofs OrdKrige_proofs2 OrdKrige_proofs3 OrdKrige_props OrdKrigePd_proofs OrdKrigePd_props KrigeWin_model KrigeWin_spec KrigeWin_proofs KrigeWin_proofs2 KrigeWin_proofs3 KrigeWin_props
  KrigeDistinct_spec KrigeDistinct_proofs.
Import ListNotations.
Local Open Scope R_scope.

(** The spherical correlation is strictly positive definite for different places. *)
Theorem C133_strictly_positive_definite_exact :
  forall sill range (x y : list R) (c : nat -> R), 0 < range -> 0 < sill -> apart x y -> tot c (length x) = 0 -> (exists i, (i < length x)%nat /\ c i <> 0) ->
  tot (fun i => tot (fun j => c i * c j * gam (spherical_curve sill range 0) x y i j) (length x)) (length x) < 0.
Proof.
  intros sill range x y c HR HS A Z (i & Hi & Ci). apply Rnot_le_lt. intros Q. apply Ci.
  exact (gam_quad_zero sill range 0 HR ltac:(lra) HS x y c (or_intror A) Z Q i Hi).
Qed.
Print Assumptions C133_strictly_positive_definite_exact.

Theorem C133_works_exactly_if_exact :
  forall sill range nugget inv x y z rows cols gx gy, 0 < range -> 0 <= nugget <= sill -> 0 < sill -> exact_inv inv -> setting x y z rows cols gx gy ->
  ((exists zi sg, kriged (sph sill range nugget) inv x y z rows cols gx gy zi sg) <-> 0 < nugget \/ apart x y).
Proof.
  intros sill range nugget inv x y z rows cols gx gy HR HN HS I ST. split.
  - intros (zi & sg & K). destruct (apart_dec x y) as [A|(i & j & Hij & E1 & E2)]; [right; exact A|]. destruct (Rlt_le_dec 0 nugget) as [|NG]; [left; assumption|exfalso].
    assert (nugget = 0) by lra. subst nugget.
    pose proof (C132_two_stations_at_one_place_raise_exact sill range inv x y z rows cols gx gy i j HR I ST Hij E1 E2) as F.
    destruct K as (s & G & K & _). unfold krige_raises in F. rewrite K in F. discriminate.
  - intros A. destruct ST as (LY & LZ & N2 & GX & GY).
    destruct (call_cases _ _ inv x y (sph_real sill range nugget HR) LY I z rows cols gx gy N2 LZ GX GY) as [(_ & zi & sg & K & _)|(N & _)]; [exists zi, sg; exact K|].
    destruct N. apply sph_regular_apart; auto. lia.
Qed.
Print Assumptions C133_works_exactly_if_exact.
Lemma C133_x_apart : apart C132_x [0; 0; 0].
Proof. intros i j Hij. change (length C132_x) with 3%nat in Hij. left. destruct i as [|[|]], j as [|[|[|]]]; try lia; unfold C132_x, rget, get; cbn [nth]; lra. Qed.
Example C133_case_no_nugget :
  (exists zi sg, kriged (sph (9 / 10) 1 0) exact_inverse C132_x [0; 0; 0] [1; 2; 4] 1 1 [[4 / 5]] [[0]] zi sg) /\
  ~ (exists zi sg, kriged (sph (9 / 10) 1 0) exact_inverse [0; 1; 0] [5; 5; 5] [1; 2; 1] 1 1 [[3]] [[3]] zi sg).
Proof.
  split.
  - apply C133_works_exactly_if_exact; [lra|lra|lra|exact exact_inverse_ok|exact (C132_setting [1; 2; 4] [4 / 5] [0] eq_refl eq_refl)|right; exact C133_x_apart].
  - intros K. apply C133_works_exactly_if_exact in K; [|lra|lra|lra|exact exact_inverse_ok|repeat split; try (intros r [<-|[]]; reflexivity); apply le_S, le_n].
    destruct K as [K|K]; [lra|]. destruct (K 0%nat 2%nat) as [E|E]; [split; [apply le_S, le_n|apply le_n]|apply E; reflexivity|apply E; reflexivity].
Qed.

(** The kriging weights are the only best ones, and no estimate is certain away from the stations. *)
Theorem C133_only_minimum_exact :
  forall sill range nugget inv x y z rows cols gx gy zi sg k, 0 < range -> 0 <= nugget <= sill -> 0 < sill -> exact_inv inv -> setting x y z rows cols gx gy ->
  kriged (sph sill range nugget) inv x y z rows cols gx gy zi sg -> (k < rows * cols)%nat ->
  let n := length x in let p := rget (concat gx) k in let q := rget (concat gy) k in
  let V := est_var (spherical_curve sill range nugget) x y p q in
  (exists w, tot w n = 1 /\ rget zi k = tot (fun i => w i * rget z i) n /\ V w = rget sg k /\
     forall v, tot v n = 1 -> V v <= rget sg k -> forall i, (i < n)%nat -> v i = w i) /\
  ((forall i, (i < n)%nat -> 1 / 10 ^ 10 < rdist p q (rget x i) (rget y i)) -> 0 < rget sg k).
Proof.
  intros sill range nugget inv x y z rows cols gx gy zi sg k HR HN HS I ST K Hk n p q V.
  assert (A : 0 < nugget \/ apart x y) by (apply (C133_works_exactly_if_exact sill range nugget inv x y z rows cols gx gy); auto; exists zi, sg; exact K).
  destruct (C132_variance_exact _ _ inv x y z rows cols gx gy zi sg k (sph_real sill range nugget HR) I ST K Hk) as (w & S1 & E & B & C). fold p q n in C, B. fold n in S1, E.
  split.
  - exists w. split; [exact S1|]. split; [exact E|]. split; [symmetry; exact B|]. intros v Sv L.
    specialize (C v Sv). change (est_var _ _ _ _ _ v) with (V v) in C.
    assert (Z : tot (fun i => v i - w i) n = 0) by (rewrite tot_sub, Sv, S1; ring).
    intros i Hi. enough (v i - w i = 0) by lra. apply (gam_quad_zero sill range nugget HR HN HS x y (fun i => v i - w i) A Z); [|exact Hi]. cbv beta. fold n. lra.
  - intros Far. rewrite B. apply est_var_pos; auto.
Qed.
Print Assumptions C133_only_minimum_exact.
Example C133_case_positive : exists zi sg, kriged (sph (9 / 10) 1 0) exact_inverse C132_x [0; 0; 0] [1; 2; 4] 1 1 [[4 / 5]] [[0]] zi sg /\ 0 < rget sg 0.
Proof.
  destruct C133_case_no_nugget as [(zi & sg & K) _]. exists zi, sg. split; [exact K|].
  refine (proj2 (C133_only_minimum_exact (9 / 10) 1 0 exact_inverse C132_x [0; 0; 0] [1; 2; 4] 1 1 [[4 / 5]] [[0]] zi sg 0 ltac:(lra) ltac:(lra) ltac:(lra) exact_inverse_ok
    (C132_setting [1; 2; 4] [4 / 5] [0] eq_refl eq_refl) K (le_n 1)) _).
  intros i Hi. change (length C132_x) with 3%nat in Hi. destruct i as [|[|[|i]]]; [| | |lia]; unfold C132_x, rget, get; cbn [nth concat app].
  - rewrite rdist_above by lra. simpl; lra.
  - rewrite rdist_above by lra. simpl; lra.
  - rewrite rdist_below by lra. simpl; lra.
Qed.

(** With the nearest stations only it works whenever it works with all of them. *)
Theorem C134_distinct_places_work_exact :
  forall sill range nugget solve query k x y z rows cols gx gy, 0 < range -> 0 <= nugget <= sill -> 0 < sill -> 0 < nugget \/ apart x y -> exact_solve solve -> query_ok query ->
  setting x y z rows cols gx gy -> (2 <= k <= length x)%nat ->
  exists zi sg, kriged_near (sph sill range nugget) solve query k x y z rows cols gx gy zi sg.
Proof.
  intros sill range nugget solve query k x y z rows cols gx gy HR HN HS A S Q (LY & LZ & N2 & GX & GY) KK.
  destruct (near_cases (sph sill range nugget) (spherical_curve sill range nugget) x y solve query k (sph_real sill range nugget HR) LY S Q ltac:(lia) ltac:(lia) z rows cols gx gy LZ GX GY)
    as [(zi & sg & K & _)|(_ & j & u & _ & (LU & ND & RG & _) & NR)]; [exists zi, sg; exact K|].
  destruct NR. apply sph_regular_apart; auto; [rewrite only_length; lia|]. destruct A as [A|A]; [left; exact A|right]. apply apart_only; auto.
Qed.
Print Assumptions C134_distinct_places_work_exact.
Example C134_case_no_nugget : exists zi sg, kriged_near (sph (9 / 10) 1 0) (solve_by exact_inverse) brute_query 2 C132_x [0; 0; 0] [1; 2; 4] 1 1 [[4 / 5]] [[0]] zi sg.
Proof.
  apply C134_distinct_places_work_exact; [lra|lra|lra|right; exact C133_x_apart|exact (solve_by_ok _ exact_inverse_ok)|exact brute_query_ok|exact (C132_setting [1; 2; 4] [4 / 5] [0] eq_refl eq_refl)|change (2 <= 2 <= 3)%nat; lia].
Qed.
