(** C134: kriging with [n_closest_points]. *)
From Coq Require Import List ZArith Bool Reals Lra Lia.
From Verif Require Import Base Num RealSpec RealStat SpecGram_proofs5 LinAlg PosDef Grid_proofs Idw_model Idw_spec Idw_proofs Kriging_model OrdKrige_model OrdKrige_spec
  OrdKrige_proofs OrdKrige_proofs2 OrdKrige_proofs3 OrdKrige_props OrdKrigePd_proofs OrdKrigePd_props KrigeWin_model KrigeWin_spec KrigeWin_proofs KrigeWin_proofs2 KrigeWin_proofs3.
Import ListNotations.
Local Open Scope R_scope.

Theorem C134_assumptions_satisfiable : exists inv solve query, exact_inv inv /\ exact_solve solve /\ query_ok query.
Proof. exists exact_inverse, (solve_by exact_inverse), brute_query. split; [exact exact_inverse_ok|]. split; [exact (solve_by_ok _ exact_inverse_ok)|exact brute_query_ok]. Qed.
Print Assumptions C134_assumptions_satisfiable.

(** Each grid point gets what kriging with all of only its [k] nearest stations gives there. *)
Theorem C134_kriging_of_nearest_exact :
  forall vg g inv solve query k x y z rows cols gx gy, real_variogram vg g -> exact_inv inv -> exact_solve solve -> query_ok query ->
  setting x y z rows cols gx gy -> (2 <= k <= List.length x)%nat ->
  let p j := rget (concat gx) j in let q j := rget (concat gy) j in
  (exists zi sg, kriged_near vg solve query k x y z rows cols gx gy zi sg /\ List.length zi = (rows * cols)%nat /\ List.length sg = (rows * cols)%nat /\
     forall j, (j < rows * cols)%nat -> exists used, nearest_stations x y k (p j) (q j) used /\
       kriged vg inv (only used x) (only used y) (only used z) 1 1 [[p j]] [[q j]] [rget zi j] [rget sg j]) \/
  (near_raises vg solve query k x y z rows cols gx gy OtherError /\
     exists j used, (j < rows * cols)%nat /\ nearest_stations x y k (p j) (q j) used /\
       krige_raises vg inv (only used x) (only used y) (only used z) 1 1 [[p j]] [[q j]] OtherError).
Proof. intros vg g inv solve query k x y z rows cols gx gy V I S Q ST K. exact (near_kriging vg g inv x y rows cols gx gy solve query k z V I S Q ST K). Qed.
Print Assumptions C134_kriging_of_nearest_exact.

(** the default parameters and the network of the C132 examples *)
Definition near3 (k : nat) (z row col zi sg : list R) : Prop :=
  kriged_near (sph (9 / 10) 1 (1 / 10)) (solve_by exact_inverse) brute_query k C132_x [0; 0; 0] z 1 (List.length row) [row] [col] zi sg.

(** with the spherical variogram it always works *)
Theorem C134_spherical_always_works_exact :
  forall sill range nugget solve query k x y z rows cols gx gy, 0 < range -> 0 < nugget <= sill -> exact_solve solve -> query_ok query ->
  setting x y z rows cols gx gy -> (2 <= k <= List.length x)%nat ->
  exists zi sg, kriged_near (sph sill range nugget) solve query k x y z rows cols gx gy zi sg.
Proof.
  intros sill range nugget solve query k x y z rows cols gx gy HR HN S Q (LY & LZ & N2 & GX & GY) KK.
  destruct (near_cases (sph sill range nugget) (spherical_curve sill range nugget) x y solve query k (sph_real sill range nugget HR) LY S Q ltac:(lia) ltac:(lia) z rows cols gx gy LZ GX GY)
    as [(zi & sg & K & _)|(_ & j & u & _ & (LU & _) & NR)]; [exists zi, sg; exact K|].
  destruct NR. apply sph_regular; try lra. rewrite only_length. lia.
Qed.
Print Assumptions C134_spherical_always_works_exact.
Lemma C134_works z row col : List.length z = 3%nat -> List.length col = List.length row -> exists zi sg, near3 2 z row col zi sg.
Proof.
  intros LZ LC. unfold near3. apply C134_spherical_always_works_exact; [lra|lra|exact (solve_by_ok _ exact_inverse_ok)|exact brute_query_ok|apply C132_setting; auto|change (2 <= 2 <= 3)%nat; lia].
Qed.
(** nearest to 0.8 are the stations at 1.1 and 0.4 *)
Example C134_case_nearest : forall z, List.length z = 3%nat -> exists zi sg, near3 2 z [4 / 5] [0] zi sg /\
  exists used, (used = [2; 1]%nat \/ used = [1; 2]%nat) /\
    kriged (sph (9 / 10) 1 (1 / 10)) exact_inverse (only used C132_x) (only used [0; 0; 0]) (only used z) 1 1 [[4 / 5]] [[0]] [rget zi 0] [rget sg 0].
Proof.
  intros z LZ. destruct (C134_kriging_of_nearest_exact _ C132_curve exact_inverse (solve_by exact_inverse) brute_query 2 C132_x [0; 0; 0] z 1 1 [[4 / 5]] [[0]]
    C132_case_default_variogram exact_inverse_ok (solve_by_ok _ exact_inverse_ok) brute_query_ok (C132_setting z [4 / 5] [0] LZ eq_refl) ltac:(change (2 <= 2 <= 3)%nat; lia))
    as [(zi & sg & K & _ & _ & A)|(E & _)].
  - exists zi, sg. split; [exact K|]. destruct (A 0%nat ltac:(cbn; lia)) as (u & (LU & ND & RG & NN) & KU). exists u. split; [|exact KU].
    change (rget (concat [[4 / 5]]) 0) with (4 / 5) in NN. change (rget (concat [[0]]) 0) with 0 in NN.
    assert (N0 : ~ In 0%nat u).
    { intros I0. assert (X : exists j, (1 <= j < 3)%nat /\ ~ In j u).
      { destruct (in_dec Nat.eq_dec 1%nat u); [|exists 1%nat; split; [lia|auto]]. destruct (in_dec Nat.eq_dec 2%nat u); [|exists 2%nat; split; [lia|auto]].
        assert (3 <= List.length u)%nat; [|lia]. apply (NoDup_incl_length (l := [0; 1; 2]%nat)); [repeat constructor; cbn; intuition lia|]. intros a [<-|[<-|[<-|[]]]]; auto. }
      destruct X as (j & Hj & NJ). specialize (NN 0%nat j I0 ltac:(change (j < 3)%nat; lia) NJ). revert NN. unfold C132_x.
      destruct j as [|[|[|j]]]; [lia| | |lia]; unfold rget, get; cbn [nth].
      - rewrite !rdist_above by lra. lra.
      - rewrite (rdist_above (4 / 5) 0), (rdist_below (4 / 5) (11 / 10)) by lra. lra. }
    destruct u as [|a [|b [|]]]; try discriminate. pose proof (RG a ltac:(left; reflexivity)) as Ra. pose proof (RG b ltac:(right; left; reflexivity)) as Rb.
    change (a < 3)%nat in Ra. change (b < 3)%nat in Rb. apply NoDup_cons_iff in ND as [ND _].
    destruct a as [|[|[|a]]], b as [|[|[|b]]]; try lia; auto; try (destruct N0; cbn; auto; fail); destruct ND; cbn; auto.
  - destruct (C134_works z [4 / 5] [0] LZ eq_refl) as (zi & sg & K). destruct (near_raises_not _ _ _ _ _ _ _ _ _ _ _ _ _ _ K E).
Qed.

(** all stations as neighbours: as without the option *)
Theorem C134_all_stations_exact :
  forall vg g inv solve query x y z rows cols gx gy zi sg, real_variogram vg g -> exact_inv inv -> exact_solve solve -> query_ok query ->
  setting x y z rows cols gx gy -> kriged vg inv x y z rows cols gx gy zi sg ->
  kriged_near vg solve query (List.length x) x y z rows cols gx gy zi sg.
Proof.
  intros vg g inv solve query x y z rows cols gx gy zi sg V I S Q ST K. assert (N2 : (2 <= List.length x)%nat) by apply ST.
  exact (near_all vg g inv x y rows cols gx gy solve query (List.length x) z V I S Q ST (conj N2 (le_n _)) zi sg eq_refl K).
Qed.
Print Assumptions C134_all_stations_exact.

Theorem C134_constant_exact :
  forall vg g solve query k x y rows cols gx gy c zi sg, real_variogram vg g -> exact_solve solve -> query_ok query ->
  setting x y (repeat c (List.length x)) rows cols gx gy -> (2 <= k <= List.length x)%nat ->
  kriged_near vg solve query k x y (repeat c (List.length x)) rows cols gx gy zi sg -> zi = repeat c (rows * cols).
Proof. intros vg g solve query k x y rows cols gx gy c zi sg V S Q ST K. exact (near_constant vg g x y rows cols gx gy solve query k _ V S Q ST K c zi sg eq_refl). Qed.
Print Assumptions C134_constant_exact.
Example C134_case_constant : exists sg, near3 2 [3; 3; 3] [1 / 5; 7] [0; 1] [3; 3] sg.
Proof.
  destruct (C134_works [3; 3; 3] [1 / 5; 7] [0; 1]) as (zi & sg & K); [reflexivity..|]. exists sg.
  rewrite (C134_constant_exact _ C132_curve _ _ 2 C132_x [0; 0; 0] 1 2 _ _ 3 zi sg C132_case_default_variogram (solve_by_ok _ exact_inverse_ok) brute_query_ok
    (C132_setting [3; 3; 3] [1 / 5; 7] [0; 1] eq_refl eq_refl) ltac:(change (2 <= 2 <= 3)%nat; lia) K) in K. exact K.
Qed.

Theorem C134_reproduces_data_exact :
  forall vg g solve query k x y z rows cols gx gy zi sg j i, real_variogram vg g -> exact_solve solve -> query_ok query ->
  setting x y z rows cols gx gy -> (2 <= k <= List.length x)%nat ->
  kriged_near vg solve query k x y z rows cols gx gy zi sg -> (j < rows * cols)%nat -> (i < List.length x)%nat ->
  rget (concat gx) j = rget x i -> rget (concat gy) j = rget y i ->
  (forall m, (m < List.length x)%nat -> m <> i -> 1 / 10 ^ 10 < rdist (rget x i) (rget y i) (rget x m) (rget y m)) ->
  rget zi j = rget z i /\ rget sg j = 0.
Proof.
  intros vg g solve query k x y z rows cols gx gy zi sg j i V S Q ST K.
  exact (near_station vg g exact_inverse x y rows cols gx gy solve query k z V exact_inverse_ok S Q ST K zi sg j i).
Qed.
Print Assumptions C134_reproduces_data_exact.
Example C134_case_station : forall z1, exists zi sg, near3 2 [0; z1; 4] [1; 2 / 5] [1; 0] zi sg /\ rget zi 1 = z1 /\ rget sg 1 = 0.
Proof.
  intros z1. destruct (C134_works [0; z1; 4] [1; 2 / 5] [1; 0]) as (zi & sg & K); [reflexivity..|]. exists zi, sg. split; [exact K|].
  refine (C134_reproduces_data_exact _ C132_curve _ _ 2 _ _ [0; z1; 4] _ _ _ _ zi sg 1 1 C132_case_default_variogram (solve_by_ok _ exact_inverse_ok) brute_query_ok
    (C132_setting [0; z1; 4] [1; 2 / 5] [1; 0] eq_refl eq_refl) _ K _ _ _ _ _); [change (2 <= 2 <= 3)%nat; lia|apply le_n|apply le_S, le_n|reflexivity|reflexivity|].
  intros [|[|[|j]]] Hj N; [|destruct (N eq_refl)| |change (S (S (S j)) < 3)%nat in Hj; lia];
  unfold C132_x, rget, get; cbn [nth]; [rewrite rdist_above by lra|rewrite rdist_below by lra]; simpl; lra.
Qed.

(** leaving stations out never makes the stored variance smaller *)
Theorem C134_variance_not_smaller_exact :
  forall sill range nugget inv solve query k x y z rows cols gx gy zi sg zi' sg' j, 0 < range -> 0 <= nugget <= sill ->
  exact_inv inv -> exact_solve solve -> query_ok query -> setting x y z rows cols gx gy -> (2 <= k <= List.length x)%nat ->
  kriged (sph sill range nugget) inv x y z rows cols gx gy zi sg -> kriged_near (sph sill range nugget) solve query k x y z rows cols gx gy zi' sg' ->
  (j < rows * cols)%nat -> rget sg j <= rget sg' j.
Proof.
  intros sill range nugget inv solve query k x y z rows cols gx gy zi sg zi' sg' j HR HN I S Q ST KK K K' Hj.
  destruct (C133_minimum_variance_exact sill range nugget inv x y z rows cols gx gy zi sg j HR HN I ST K Hj) as (w & _ & _ & _ & M).
  destruct (near_elim _ _ x y rows cols gx gy solve query k z (sph_real sill range nugget HR) S Q ST KK zi' sg' K') as (_ & _ & A).
  destruct (A j Hj) as (u & (LU & ND & RU & _) & _ & v & mu & SY & _ & ES).
  assert (S1 : tot v (List.length u) = 1) by (destruct SY as [S1 _]; rewrite only_length in S1; exact S1).
  specialize (M (spread u v) (spread_one x u v RU S1)). cbv zeta in M.
  rewrite (spread_var (spherical_curve sill range nugget) x y u v (rget (concat gx) j) (rget (concat gy) j) ND RU) in M.
  destruct (variance_identity (spherical_curve sill range nugget) (only u x) (only u y) (rget (concat gx) j) (rget (concat gy) j) v mu v SY) as [EV _]; [rewrite only_length; exact S1|].
  rewrite only_length, LU, <- ES in EV. rewrite EV in M.
  assert (0 <= nugget * tot (fun i => (spread u v i - w i) * (spread u v i - w i)) (List.length x)) by (apply Rmult_le_pos; [lra|apply tot_nonneg; intros; apply Rle_0_sqr]).
  lra.
Qed.
Print Assumptions C134_variance_not_smaller_exact.

(** With two neighbours each value lies between the values of the two; so
    non-negative data give a non-negative field. *)
Theorem C134_two_nearest_bounds_exact :
  forall sill range nugget solve query x y z rows cols gx gy zi sg j, 0 < range -> 0 <= nugget <= sill -> exact_solve solve -> query_ok query ->
  setting x y z rows cols gx gy -> kriged_near (sph sill range nugget) solve query 2 x y z rows cols gx gy zi sg -> (j < rows * cols)%nat ->
  let d i := rdist (rget (concat gx) j) (rget (concat gy) j) (rget x i) (rget y i) in
  (forall i, (i < List.length x)%nat -> d i = 0 \/ 1 / 10 ^ 10 < d i) ->
  exists a b, nearest_stations x y 2 (rget (concat gx) j) (rget (concat gy) j) [a; b] /\
    Rmin (rget z a) (rget z b) <= rget zi j <= Rmax (rget z a) (rget z b).
Proof.
  intros sill range nugget solve query x y z rows cols gx gy zi sg j HR HN S Q ST K Hj d Far.
  assert (N2 : (2 <= List.length x)%nat) by apply ST.
  destruct (near_elim _ _ x y rows cols gx gy solve query 2 z (sph_real sill range nugget HR) S Q ST (conj (le_n 2) N2) zi sg K) as (_ & _ & A).
  destruct (A j Hj) as (u & NS & RG & w & mu & SY & EV & _). assert (LU : List.length u = 2%nat) by apply NS.
  destruct u as [|a [|b [|]]]; try discriminate. exists a, b. split; [exact NS|]. destruct NS as (_ & _ & RU & _).
  destruct (two_weights sill range nugget HR HN (rget (concat gx) j) (rget (concat gy) j) (rget x a) (rget y a) (rget x b) (rget y b) w mu RG) as (W0 & W1 & W).
  - intros [|[|i]] Hi; [apply (Far a), RU; left; reflexivity|apply (Far b), RU; right; left; reflexivity|lia].
  - exact SY.
  - rewrite EV, !tot_S. change (tot (fun i => w i * rget (only [a; b] z) i) 0) with 0. change (rget (only [a; b] z) 0) with (rget z a). change (rget (only [a; b] z) 1) with (rget z b).
    set (u := rget z a) in *. set (v := rget z b) in *. replace (w 1%nat) with (1 - w 0%nat) by lra.
    split; [unfold Rmin|unfold Rmax]; destruct (Rle_dec u v); nra.
Qed.
Print Assumptions C134_two_nearest_bounds_exact.
Example C134_case_two_nearest : exists zi sg, near3 2 [100; 0; 0] [4 / 5] [0] zi sg /\ rget zi 0 = 0.
Proof.
  destruct (C134_case_nearest [100; 0; 0] eq_refl) as (zi & sg & K & u & U & KU). exists zi, sg. split; [exact K|].
  assert (E : only u [100; 0; 0] = repeat 0 2) by (destruct U as [->| ->]; reflexivity). rewrite E in KU.
  assert (LU : List.length (only u C132_x) = 2%nat) by (destruct U as [->| ->]; reflexivity).
  assert (LU' : List.length (only u [0; 0; 0]) = 2%nat) by (destruct U as [->| ->]; reflexivity).
  pose proof (krige_constant _ C132_curve exact_inverse (only u C132_x) (only u [0; 0; 0]) 1 1 [[4 / 5]] [[0]] C132_case_default_variogram exact_inverse_ok
    ltac:(lia) ltac:(lia) (one_grid _) (one_grid _) 0 [rget zi 0] [rget sg 0]) as C. rewrite LU in C. specialize (C KU). injection C as C. exact C.
Qed.

(** with three neighbours it is not so *)
Theorem C134_three_nearest_negative_refuted : exists sg, near3 3 [100; 0; 0] [4 / 5] [0] [- 61400 / 121239] sg.
Proof.
  destruct (C132_negative_rain_refuted exact_inverse exact_inverse_ok) as (sg & K). exists sg.
  exact (C134_all_stations_exact _ C132_curve exact_inverse _ _ C132_x [0; 0; 0] [100; 0; 0] 1 1 [[4 / 5]] [[0]] [- 61400 / 121239] sg C132_case_default_variogram exact_inverse_ok
    (solve_by_ok _ exact_inverse_ok) brute_query_ok (C132_setting [100; 0; 0] [4 / 5] [0] eq_refl eq_refl) K).
Qed.
Print Assumptions C134_three_nearest_negative_refuted.

(** less than two neighbours are refused *)
Theorem C134_less_than_two_raises :
  forall (O : numops) vg solve query k (x y z xi yi : list O), (k <= 1)%nat -> pykrige_window vg solve query k x y z xi yi = Err ValueError.
Proof.
  intros O vg solve query k x y z xi yi K. unfold pykrige_window. destruct (Nat.ltb _ _); [reflexivity|]. rewrite (proj2 (Nat.leb_le k 1) K). reflexivity.
Qed.
Print Assumptions C134_less_than_two_raises.
Example C134_case_one : forall vg solve query, near_raises vg solve query 1 [0; 1; 2] [0; 1; 2] [3; 3; 3] 1 1 [[1]] [[1]] ValueError.
Proof. reflexivity. Qed.
