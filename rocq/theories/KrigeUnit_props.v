(** C132: kriging in another unit of length, and with a range below the distances of the stations. *)
From Coq Require Import List ZArith Bool Reals Lra Lia.
From Verif Require Import Base Num RealSpec RealStat SpecGram_proofs5 Grid_model Grid_proofs Idw_spec Kriging_model OrdKrige_model LinAlg OrdKrige_spec
  OrdKrige_proofs OrdKrige_proofs2 OrdKrige_proofs3 OrdKrige_props KrigeUnit_proofs.
Import ListNotations.
Local Open Scope R_scope.

(** Coordinates and range in another unit: the same field and variances, as long as the same
    places count as being at a station (within 1e-10, in whatever unit). *)
Theorem C132_unit_of_length_exact :
  forall c sill range nugget inv x y z rows cols gx gy zi sg, 0 < c -> 0 < range -> exact_inv inv -> setting x y z rows cols gx gy ->
  (forall k i, (k < rows * cols)%nat -> (i < List.length x)%nat ->
     let d := rdist (rget (concat gx) k) (rget (concat gy) k) (rget x i) (rget y i) in d <= 1 / 10 ^ 10 <-> c * d <= 1 / 10 ^ 10) ->
  kriged (sph sill range nugget) inv x y z rows cols gx gy zi sg ->
  kriged (sph sill (c * range) nugget) inv (map (Rmult c) x) (map (Rmult c) y) z rows cols (map (map (Rmult c)) gx) (map (map (Rmult c)) gy) zi sg.
Proof. exact krige_unit. Qed.
Print Assumptions C132_unit_of_length_exact.
Example C132_case_metres : forall zi sg, C132_call [1; 2; 4] [4 / 5] [0] zi sg ->
  kriged (sph (9 / 10) 1000 (1 / 10)) exact_inverse [0; 400; 1100] [0; 0; 0] [1; 2; 4] 1 1 [[800]] [[0]] zi sg.
Proof.
  intros zi sg K. apply (C132_unit_of_length_exact 1000) in K; [|lra|lra|exact exact_inverse_ok|exact (C132_setting [1; 2; 4] [4 / 5] [0] eq_refl eq_refl)|].
  - unfold C132_x in K. cbn [map] in K.
    replace (1000 * 1) with 1000 in K by ring. replace (1000 * 0) with 0 in K by ring. replace (1000 * (2 / 5)) with 400 in K by field.
    replace (1000 * (11 / 10)) with 1100 in K by field. replace (1000 * (4 / 5)) with 800 in K by field. exact K.
  - intros k i Hk Hi. assert (k = 0%nat) as -> by (simpl in Hk; lia). change (List.length C132_x) with 3%nat in Hi. unfold C132_x, rget, get. cbn [nth concat app]. cbv zeta.
    destruct i as [|[|[|i]]]; [| | |lia]; cbn [nth].
    + rewrite rdist_above by lra. simpl. lra.
    + rewrite rdist_above by lra. simpl. lra.
    + rewrite rdist_below by lra. simpl. lra.
Qed.

(** With a range that no two stations are within - such as the default range 1 for coordinates in
    metres - every place beyond the range of all stations gets the mean of the data. *)
Theorem C132_short_range_gives_mean_exact :
  forall sill range nugget inv x y z rows cols gx gy zi sg k, 0 < range -> exact_inv inv -> setting x y z rows cols gx gy ->
  (forall i j, (i < j < List.length x)%nat -> range <= rdist (rget x i) (rget y i) (rget x j) (rget y j)) ->
  kriged (sph sill range nugget) inv x y z rows cols gx gy zi sg -> (k < rows * cols)%nat ->
  (forall i, (i < List.length x)%nat ->
     let d := rdist (rget (concat gx) k) (rget (concat gy) k) (rget x i) (rget y i) in range <= d /\ 1 / 10 ^ 10 < d) ->
  rget zi k = rmean z /\ rget sg k = sill * (1 + / INR (List.length x)).
Proof.
  intros sill range nugget inv x y z rows cols gx gy zi sg k HR I (LY & LZ & N2 & GX & GY) F K Hk D.
  set (g := spherical_curve sill range nugget).
  destruct (kriged_elim (sph sill range nugget) g inv x y rows cols gx gy (sph_real sill range nugget HR) I LY N2 GX GY z zi sg LZ K) as (_ & _ & _ & V).
  destruct (V k Hk) as [_ VV]. set (n := List.length x) in *. assert (NP : 0 < INR n) by (apply lt_0_INR; lia).
  assert (G : forall i j, (i < n)%nat -> (j < n)%nat -> gam g x y i j = sill - sill * delta i j).
  { intros i j Hi Hj. unfold gam. destruct (Nat.eqb_spec i j) as [->|N]; [rewrite delta_same; ring|rewrite delta_diff by auto].
    unfold g. rewrite sph_far; auto; [ring|]. destruct (Nat.lt_ge_cases i j) as [L|L]; [apply F; lia|].
    replace (rdist _ _ _ _) with (rdist (rget x j) (rget y j) (rget x i) (rget y i)) by (unfold rdist; f_equal; ring). apply F. lia. }
  assert (G0 : forall i, (i < n)%nat -> gam0 g x y (rget (concat gx) k) (rget (concat gy) k) i = sill).
  { intros i Hi. destruct (D i Hi) as [D1 D2]. unfold gam0. cbv zeta. destruct (Rle_dec _ _) as [C|_]; [exfalso; lra|]. apply sph_far; auto. }
  destruct (VV (fun _ => / INR n) (- sill / INR n)) as [E1 E2].
  - split; fold n; [rewrite tot_const; field; lra|]. intros i Hi. rewrite G0 by auto.
    rewrite (tot_ext _ (fun j => sill * / INR n - delta i j * (sill * / INR n))) by (intros j Hj; rewrite G by auto; ring).
    rewrite tot_minus, tot_const, (tot_delta_l (fun _ => sill * / INR n)) by exact Hi. field. lra.
  - split.
    + rewrite E1, tot_scal. unfold rmean. rewrite LZ. fold n. rewrite Rmult_comm. unfold Rdiv. f_equal. unfold tot. f_equal.
      apply (nth_ext _ _ 0 0); [rewrite map_length, seq_length; auto|]. intros i Hi. rewrite map_length, seq_length in Hi.
      rewrite (nth_indep _ 0 (rget z 0)) by (rewrite map_length, seq_length; exact Hi). rewrite map_nth, seq_nth by exact Hi. reflexivity.
    + rewrite E2. rewrite (tot_ext _ (fun _ => / INR n * sill)) by (intros i Hi; rewrite G0 by auto; reflexivity). rewrite tot_const. field. lra.
Qed.
Print Assumptions C132_short_range_gives_mean_exact.
(** three stations, coordinates in metres, default parameters *)
Example C132_case_metres_default_range : exists zi sg,
  kriged (sph (9 / 10) 1 (1 / 10)) exact_inverse [0; 400; 1100] [0; 0; 0] [1; 2; 4] 1 1 [[800]] [[0]] zi sg /\ rget zi 0 = 7 / 3.
Proof.
  assert (ST : setting [0; 400; 1100] [0; 0; 0] [1; 2; 4] 1 1 [[800]] [[0]]) by (repeat split; try (intros r [<-|[]]; reflexivity); apply le_S, le_n).
  assert (RG : regular C132_curve [0; 400; 1100] [0; 0; 0]).
  { intros v m H1 H2. change (List.length [0; 400; 1100]) with 3%nat in *. rewrite tot3 in H1.
    assert (GV : forall i j, (i < 3)%nat -> (j < 3)%nat -> i <> j -> gam C132_curve [0; 400; 1100] [0; 0; 0] i j = 9 / 10).
    { intros i j Hi Hj N. unfold gam. destruct (Nat.eqb_spec i j); [contradiction|]. apply sph_far; [lra|].
      destruct i as [|[|[|]]], j as [|[|[|]]]; try lia; unfold rget, get; cbn [nth]; (rewrite rdist_below by lra; lra) || (rewrite rdist_above by lra; lra). }
    assert (GD : forall i, gam C132_curve [0; 400; 1100] [0; 0; 0] i i = 0) by (intros; unfold gam; rewrite Nat.eqb_refl; reflexivity).
    pose proof (H2 0%nat ltac:(lia)) as A0. pose proof (H2 1%nat ltac:(lia)) as A1. pose proof (H2 2%nat ltac:(lia)) as A2.
    rewrite tot3, ?GD, ?GV in A0, A1, A2 by lia.
    assert (Z : v 0%nat = 0 /\ v 1%nat = 0 /\ v 2%nat = 0 /\ m = 0) by (repeat split; lra).
    destruct Z as (Z0 & Z1 & Z2 & Zm). split; [|exact Zm]. intros i Hi. destruct i as [|[|[|]]]; auto; lia. }
  destruct (C132_kriging_system_exact _ C132_curve _ _ _ _ _ _ _ _ C132_case_default_variogram exact_inverse_ok ST) as [(_ & zi & sg & K & _)|(N & _)]; [|destruct (N RG)].
  exists zi, sg. split; [exact K|].
  rewrite (proj1 (C132_short_range_gives_mean_exact _ _ _ _ _ _ _ _ _ _ _ zi sg 0%nat Rlt_0_1 exact_inverse_ok ST
    ltac:(intros i j Hij; change (List.length [0; 400; 1100]) with 3%nat in Hij; destruct i as [|[|]], j as [|[|[|]]]; try lia; unfold rget, get; cbn [nth]; rewrite rdist_below by lra; lra)
    K (le_n 1)
    ltac:(intros i Hi; change (List.length [0; 400; 1100]) with 3%nat in Hi; destruct i as [|[|[|]]]; try lia; unfold rget, get; cbn [nth concat app]; cbv zeta;
          (rewrite rdist_above by lra; simpl; lra) || (rewrite rdist_below by lra; simpl; lra)))).
  unfold rmean, rsum. cbn. lra.
Qed.
