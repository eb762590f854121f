(** C132: ordinary kriging as pykrige computes it, in exact arithmetic. *)
From Coq Require Import List ZArith Bool Reals Lra Lia Permutation.
From Verif Require Import Base Num RealSpec RealStat SpecGram_proofs5 Grid_model Grid_proofs Idw_spec Kriging_model OrdKrige_model LinAlg OrdKrige_spec
  OrdKrige_proofs OrdKrige_proofs2 OrdKrige_proofs3.
Import ListNotations.
Local Open Scope R_scope.

(** Three stations on a line, default settings, for the examples. *)
Lemma rdist_line a b : rdist a 0 b 0 = Rabs (a - b).
Proof. unfold rdist. rewrite <- sqrt_Rsqr_abs. f_equal. unfold Rsqr. ring. Qed.
Lemma rdist_below a b : a <= b -> rdist a 0 b 0 = b - a.
Proof. intros. rewrite rdist_line, Rabs_left1; lra. Qed.
Lemma rdist_above a b : b <= a -> rdist a 0 b 0 = a - b.
Proof. intros. rewrite rdist_line, Rabs_pos_eq; lra. Qed.
Lemma tot3 f : tot f 3 = f 0%nat + f 1%nat + f 2%nat.
Proof. unfold tot. cbn. ring. Qed.

Definition C132_x : list R := [0; 2 / 5; 11 / 10].
Definition C132_curve := spherical_curve (9 / 10) 1 (1 / 10).
Lemma C132_gam :
  gam C132_curve C132_x [0; 0; 0] 0 1 = 5544 / 10000 /\ gam C132_curve C132_x [0; 0; 0] 0 2 = 9 / 10 /\
  gam C132_curve C132_x [0; 0; 0] 1 2 = 8028 / 10000 /\
  (forall i, gam C132_curve C132_x [0; 0; 0] i i = 0) /\
  gam0 C132_curve C132_x [0; 0; 0] (4 / 5) 0 0 = 8552 / 10000 /\ gam0 C132_curve C132_x [0; 0; 0] (4 / 5) 0 1 = 5544 / 10000 /\
  gam0 C132_curve C132_x [0; 0; 0] (4 / 5) 0 2 = 4492 / 10000.
Proof.
  unfold gam, gam0, C132_curve, C132_x, rget, get. cbn [nth Nat.eqb]. cbv zeta. unfold spherical_curve.
  rewrite !(rdist_below 0 _), (rdist_below (2 / 5) (11 / 10)), (rdist_above (4 / 5) 0), (rdist_above (4 / 5) (2 / 5)), (rdist_below (4 / 5) (11 / 10)) by lra.
  repeat match goal with |- context [Rle_dec ?a ?b] => destruct (Rle_dec a b); [try (exfalso; simpl in *; lra)|try (exfalso; simpl in *; lra)] end.
  repeat split; try (simpl; lra). intros i. rewrite Nat.eqb_refl. reflexivity.
Qed.

Lemma C132_regular : regular C132_curve C132_x [0; 0; 0].
Proof.
  destruct C132_gam as (G01 & G02 & G12 & GD & _).
  assert (G10 : gam C132_curve C132_x [0; 0; 0] 1 0 = gam C132_curve C132_x [0; 0; 0] 0 1) by apply gam_sym.
  assert (G20 : gam C132_curve C132_x [0; 0; 0] 2 0 = gam C132_curve C132_x [0; 0; 0] 0 2) by apply gam_sym.
  assert (G21 : gam C132_curve C132_x [0; 0; 0] 2 1 = gam C132_curve C132_x [0; 0; 0] 1 2) by apply gam_sym.
  intros v m H1 H2. change (List.length C132_x) with 3%nat in *. rewrite tot3 in H1.
  pose proof (H2 0%nat ltac:(lia)) as A0. pose proof (H2 1%nat ltac:(lia)) as A1. pose proof (H2 2%nat ltac:(lia)) as A2.
  rewrite tot3 in A0, A1, A2. rewrite GD, G01, G02 in A0. rewrite GD, G10, G01, G12 in A1. rewrite GD, G20, G21, G02, G12 in A2.
  assert (Z : v 0%nat = 0 /\ v 1%nat = 0 /\ v 2%nat = 0 /\ m = 0) by (repeat split; lra).
  destruct Z as (Z0 & Z1 & Z2 & Zm). split; [|exact Zm]. intros i Hi. destruct i as [|[|[|]]]; auto; lia.
Qed.
(** a call on this network with any data and grid *)
Definition C132_call (z : list R) (row col : list R) (zi sg : list R) :=
  kriged (sph (9 / 10) 1 (1 / 10)) exact_inverse C132_x [0; 0; 0] z 1 (List.length row) [row] [col] zi sg.
Lemma C132_setting z row col : List.length z = 3%nat -> List.length col = List.length row -> setting C132_x [0; 0; 0] z 1 (List.length row) [row] [col].
Proof.
  intros LZ LC. repeat split; auto; try (intros r [<-|[]]; auto).
  - apply le_S, le_n.
Qed.
Lemma C132_works z row col : List.length z = 3%nat -> List.length col = List.length row -> exists zi sg, C132_call z row col zi sg.
Proof.
  intros LZ LC. destruct (C132_setting z row col LZ LC) as (A & B & C & D & E).
  destruct (call_cases (sph (9 / 10) 1 (1 / 10)) C132_curve exact_inverse C132_x [0; 0; 0] (sph_real _ _ _ Rlt_0_1) A exact_inverse_ok z 1 (List.length row) [row] [col] C B D E)
    as [(_ & zi & sg & K & _)|(N & _)]; [exists zi, sg; exact K|destruct (N C132_regular)].
Qed.

(** A call works exactly if the stations determine the weights; then every
    value is the sum of the data with the weights of its place. *)
Theorem C132_kriging_system_exact :
  forall vg g inv x y z rows cols gx gy, real_variogram vg g -> exact_inv inv -> setting x y z rows cols gx gy ->
  (regular g x y /\ exists zi sg, kriged vg inv x y z rows cols gx gy zi sg /\
     List.length zi = (rows * cols)%nat /\ List.length sg = (rows * cols)%nat /\
     forall k, (k < rows * cols)%nat -> exists w mu, let p := rget (concat gx) k in let q := rget (concat gy) k in
       krige_sys g x y p q w mu /\ rget zi k = tot (fun i => w i * rget z i) (List.length x) /\
       rget sg k = tot (fun i => w i * gam0 g x y p q i) (List.length x) - mu) \/
  (~ regular g x y /\ krige_raises vg inv x y z rows cols gx gy OtherError).
Proof. intros vg g inv x y z rows cols gx gy V I (LY & LZ & N2 & GX & GY). exact (call_cases vg g inv x y V LY I z rows cols gx gy N2 LZ GX GY). Qed.
Print Assumptions C132_kriging_system_exact.
Example C132_case_system : exists zi sg, C132_call [1; 2; 4] [1 / 5; 4 / 5; 3] [0; 1; 0] zi sg.
Proof. apply C132_works; reflexivity. Qed.

Theorem C132_assumptions_satisfiable :
  exact_inv exact_inverse /\ forall sill range nugget, 0 < range -> real_variogram (sph sill range nugget) (spherical_curve sill range nugget).
Proof. exact (conj exact_inverse_ok sph_real). Qed.
Print Assumptions C132_assumptions_satisfiable.
Example C132_case_default_variogram : real_variogram (sph (9 / 10) 1 (1 / 10)) C132_curve.
Proof. apply (proj2 C132_assumptions_satisfiable). lra. Qed.

(** equal data give a constant field *)
Theorem C132_constant_exact :
  forall vg g inv x y rows cols gx gy c zi sg, real_variogram vg g -> exact_inv inv -> setting x y (repeat c (List.length x)) rows cols gx gy ->
  kriged vg inv x y (repeat c (List.length x)) rows cols gx gy zi sg -> zi = repeat c (rows * cols).
Proof. intros vg g inv x y rows cols gx gy c zi sg V I (LY & LZ & N2 & GX & GY). exact (krige_constant vg g inv x y rows cols gx gy V I LY N2 GX GY c zi sg). Qed.
Print Assumptions C132_constant_exact.
Example C132_case_constant : exists sg, C132_call [3; 3; 3] [1 / 5; 7] [0; 1] [3; 3] sg.
Proof.
  destruct (C132_works [3; 3; 3] [1 / 5; 7] [0; 1]) as (zi & sg & K); [reflexivity..|]. exists sg.
  rewrite (C132_constant_exact _ C132_curve _ _ _ _ _ _ _ 3 zi sg C132_case_default_variogram exact_inverse_ok (C132_setting [3; 3; 3] [1 / 5; 7] [0; 1] eq_refl eq_refl) K) in K. exact K.
Qed.

(** a grid point at a station gets its value, with variance 0, also with a nugget *)
Theorem C132_reproduces_data_exact :
  forall vg g inv x y z rows cols gx gy zi sg k i, real_variogram vg g -> exact_inv inv -> setting x y z rows cols gx gy ->
  kriged vg inv x y z rows cols gx gy zi sg -> (k < rows * cols)%nat -> (i < List.length x)%nat ->
  rget (concat gx) k = rget x i -> rget (concat gy) k = rget y i ->
  (forall j, (j < List.length x)%nat -> j <> i -> 1 / 10 ^ 10 < rdist (rget x i) (rget y i) (rget x j) (rget y j)) ->
  rget zi k = rget z i /\ rget sg k = 0.
Proof.
  intros vg g inv x y z rows cols gx gy zi sg k i V I (LY & LZ & N2 & GX & GY). exact (krige_exact vg g inv x y rows cols gx gy V I LY N2 GX GY z zi sg k i LZ).
Qed.
Print Assumptions C132_reproduces_data_exact.
Example C132_case_station : forall z1, exists zi sg, C132_call [0; z1; 4] [1; 2 / 5] [1; 0] zi sg /\ rget zi 1 = z1 /\ rget sg 1 = 0.
Proof.
  intros z1. destruct (C132_works [0; z1; 4] [1; 2 / 5] [1; 0]) as (zi & sg & K); [reflexivity..|]. exists zi, sg. split; [exact K|].
  refine (C132_reproduces_data_exact _ C132_curve _ _ _ [0; z1; 4] _ _ _ _ zi sg 1 1 C132_case_default_variogram exact_inverse_ok (C132_setting [0; z1; 4] [1; 2 / 5] [1; 0] eq_refl eq_refl) K _ _ _ _ _);
    [apply le_n|apply le_S, le_n|reflexivity|reflexivity|].
  intros [|[|[|j]]] Hj N; [|destruct (N eq_refl)| |change (S (S (S j)) < 3)%nat in Hj; lia];
  unfold C132_x, rget, get; cbn [nth]; [rewrite rdist_above by lra|rewrite rdist_below by lra]; simpl; lra.
Qed.

(** the field is linear in the data, the variances do not depend on them *)
Theorem C132_linear_exact :
  forall vg g inv x y z z' rows cols gx gy zi zi' sg sg' a b, real_variogram vg g -> exact_inv inv ->
  setting x y z rows cols gx gy -> List.length z' = List.length x ->
  kriged vg inv x y z rows cols gx gy zi sg -> kriged vg inv x y z' rows cols gx gy zi' sg' ->
  sg = sg' /\ kriged vg inv x y (map2 (fun u v => a * u + b * v) z z') rows cols gx gy (map2 (fun u v => a * u + b * v) zi zi') sg /\
  kriged vg inv x y (map (fun v => a * v + b) z) rows cols gx gy (map (fun v => a * v + b) zi) sg.
Proof.
  intros vg g inv x y z z' rows cols gx gy zi zi' sg sg' a b V I (LY & LZ & N2 & GX & GY) LZ' K K'.
  destruct (krige_linear vg g inv x y rows cols gx gy V I LY N2 GX GY a b z z' zi zi' sg sg' LZ LZ' K K') as [E L].
  split; [exact E|]. split; [exact L|]. exact (krige_affine vg g inv x y rows cols gx gy V I LY N2 GX GY a b z zi sg LZ K).
Qed.
Print Assumptions C132_linear_exact.

(** beyond the range of every station the field is constant *)
Theorem C132_far_from_stations_exact :
  forall sill range nugget inv x y z rows cols gx gy zi sg k k', 0 < range -> exact_inv inv -> setting x y z rows cols gx gy ->
  kriged (sph sill range nugget) inv x y z rows cols gx gy zi sg -> (k < rows * cols)%nat -> (k' < rows * cols)%nat ->
  (forall i, (i < List.length x)%nat -> forall l, l = k \/ l = k' ->
     range <= rdist (rget (concat gx) l) (rget (concat gy) l) (rget x i) (rget y i) /\
     1 / 10 ^ 10 < rdist (rget (concat gx) l) (rget (concat gy) l) (rget x i) (rget y i)) ->
  rget zi k = rget zi k' /\ rget sg k = rget sg k'.
Proof.
  intros sill range nugget inv x y z rows cols gx gy zi sg k k' HR I (LY & LZ & N2 & GX & GY) K Hk Hk' D.
  apply (krige_same _ _ inv x y rows cols gx gy (sph_real sill range nugget HR) I LY N2 GX GY z zi sg k k' LZ K Hk Hk').
  intros i Hi. unfold gam0. cbv zeta. destruct (D i Hi k (or_introl eq_refl)) as [A1 A2]. destruct (D i Hi k' (or_intror eq_refl)) as [B1 B2].
  destruct (Rle_dec _ _) as [C|_]; [exfalso; lra|]. destruct (Rle_dec _ _) as [C|_]; [exfalso; lra|]. rewrite !sph_far by auto. reflexivity.
Qed.
Print Assumptions C132_far_from_stations_exact.
Example C132_case_far : exists zi sg, C132_call [1; 2; 4] [10; 20] [0; 0] zi sg /\ rget zi 0 = rget zi 1.
Proof.
  destruct (C132_works [1; 2; 4] [10; 20] [0; 0]) as (zi & sg & K); [reflexivity..|]. exists zi, sg. split; [exact K|].
  refine (proj1 (C132_far_from_stations_exact _ _ _ _ _ _ [1; 2; 4] _ _ _ _ zi sg 0 1 Rlt_0_1 exact_inverse_ok (C132_setting [1; 2; 4] [10; 20] [0; 0] eq_refl eq_refl) K _ _ _)); [apply le_S, le_n|apply le_n|].
  intros [|[|[|i]]] Hi l [->| ->]; try (change (S (S (S i)) < 3)%nat in Hi; lia); unfold C132_x, rget, get; cbn [nth concat app];
    rewrite rdist_above by lra; simpl; lra.
Qed.

(** only distances matter: a moved, turned or reflected network gives the same field *)
Theorem C132_only_distances_matter_exact :
  forall vg g inv x y z rows cols gx gy x' y' gx' gy' zi sg, real_variogram vg g -> exact_inv inv ->
  setting x y z rows cols gx gy -> setting x' y' z rows cols gx' gy' ->
  (forall i j, (i < List.length x)%nat -> (j < List.length x)%nat ->
     rdist (rget x' i) (rget y' i) (rget x' j) (rget y' j) = rdist (rget x i) (rget y i) (rget x j) (rget y j)) ->
  (forall k i, (k < rows * cols)%nat -> (i < List.length x)%nat ->
     rdist (rget (concat gx') k) (rget (concat gy') k) (rget x' i) (rget y' i) =
     rdist (rget (concat gx) k) (rget (concat gy) k) (rget x i) (rget y i)) ->
  kriged vg inv x y z rows cols gx gy zi sg -> kriged vg inv x' y' z rows cols gx' gy' zi sg.
Proof.
  intros vg g inv x y z rows cols gx gy x' y' gx' gy' zi sg V I (LY & LZ & N2 & GX & GY) (LY' & LZ' & N2' & GX' & GY') D D0.
  apply (krige_distances vg g); auto; congruence.
Qed.
Print Assumptions C132_only_distances_matter_exact.

(** the order of the stations does not matter *)
Theorem C132_order_of_stations_exact :
  forall vg g inv x y z x' y' z' rows cols gx gy zi sg, real_variogram vg g -> exact_inv inv ->
  setting x y z rows cols gx gy -> setting x' y' z' rows cols gx gy ->
  Permutation (combine (combine x y) z) (combine (combine x' y') z') ->
  kriged vg inv x y z rows cols gx gy zi sg -> kriged vg inv x' y' z' rows cols gx gy zi sg.
Proof.
  intros vg g inv x y z x' y' z' rows cols gx gy zi sg V I (LY & LZ & N2 & GX & GY) (LY' & LZ' & N2' & _ & _).
  apply (krige_order vg g); auto.
Qed.
Print Assumptions C132_order_of_stations_exact.
Example C132_case_order : forall zi sg, C132_call [1; 2; 4] [1 / 5] [0] zi sg ->
  kriged (sph (9 / 10) 1 (1 / 10)) exact_inverse [2 / 5; 0; 11 / 10] [0; 0; 0] [2; 1; 4] 1 1 [[1 / 5]] [[0]] zi sg.
Proof.
  intros zi sg K. apply (C132_order_of_stations_exact _ C132_curve _ C132_x [0; 0; 0] [1; 2; 4] _ _ _ _ _ _ _ _ _ C132_case_default_variogram exact_inverse_ok
    (C132_setting [1; 2; 4] [1 / 5] [0] eq_refl eq_refl)); [|apply perm_swap|exact K].
  destruct (C132_setting [1; 2; 4] [1 / 5] [0] eq_refl eq_refl) as (_ & _ & A & B & C). repeat split; try apply A; try apply B; try apply C.
Qed.

(** sill and nugget in the same proportion: the same field, variances in that proportion *)
Theorem C132_only_nugget_ratio_matters_exact :
  forall c sill range nugget inv x y z rows cols gx gy zi sg, 0 < c -> 0 < range -> exact_inv inv -> setting x y z rows cols gx gy ->
  kriged (sph sill range nugget) inv x y z rows cols gx gy zi sg ->
  kriged (sph (c * sill) range (c * nugget)) inv x y z rows cols gx gy zi (map (Rmult c) sg).
Proof.
  intros c sill range nugget inv x y z rows cols gx gy zi sg HC HR I (LY & LZ & N2 & GX & GY).
  apply (krige_scale (sph sill range nugget) _ (spherical_curve sill range nugget)); auto; [apply sph_real; auto| |lra].
  intros d Hd. rewrite (sph_real (c * sill) range (c * nugget) HR d Hd), sph_scale. reflexivity.
Qed.
Print Assumptions C132_only_nugget_ratio_matters_exact.
Example C132_case_twice : forall zi sg, C132_call [1; 2; 4] [1 / 5] [0] zi sg ->
  kriged (sph (9 / 5) 1 (1 / 5)) exact_inverse C132_x [0; 0; 0] [1; 2; 4] 1 1 [[1 / 5]] [[0]] zi (map (Rmult 2) sg).
Proof.
  intros zi sg K. replace (9 / 5) with (2 * (9 / 10)) by field. replace (sph (2 * (9 / 10)) 1 (1 / 5)) with (sph (2 * (9 / 10)) 1 (2 * (1 / 10))) by (f_equal; field).
  apply C132_only_nugget_ratio_matters_exact; [lra|lra|exact exact_inverse_ok|exact (C132_setting [1; 2; 4] [1 / 5] [0] eq_refl eq_refl)|exact K].
Qed.

(** so the season enters the field through the range of [clim_var_param] only *)
Theorem C132_season_enters_through_range_exact :
  forall jd h jd' h', 1 / 60 <= h -> 1 / 60 <= h' ->
  exists v v', clim_var_param jd h = Ok v /\ clim_var_param jd' h' = Ok v' /\
  (v_range v = v_range v' ->
   forall inv x y z rows cols gx gy zi sg, exact_inv inv -> setting x y z rows cols gx gy ->
   kriged (sph (v_sill v) (v_range v) (v_nugget v)) inv x y z rows cols gx gy zi sg ->
   kriged (sph (v_sill v') (v_range v') (v_nugget v')) inv x y z rows cols gx gy zi (map (Rmult (v_sill v' / v_sill v)) sg)).
Proof.
  intros jd h jd' h' Hh Hh'. destruct (clim_var_bounds jd h Hh) as (v & E & S1 & _ & R1 & _). destruct (clim_var_bounds jd' h' Hh') as (v' & E' & S2 & _ & _).
  destruct (clim_var_general jd h ltac:(lra)) as (u & Eu & _ & _ & Nu). rewrite E in Eu. injection Eu as <-.
  destruct (clim_var_general jd' h' ltac:(lra)) as (u & Eu & _ & _ & Nu'). rewrite E' in Eu. injection Eu as <-.
  exists v, v'. split; [exact E|]. split; [exact E'|]. intros ER inv x y z rows cols gx gy zi sg I ST K.
  replace (sph (v_sill v') (v_range v') (v_nugget v')) with (sph (v_sill v' / v_sill v * v_sill v) (v_range v) (v_sill v' / v_sill v * v_nugget v)).
  - apply C132_only_nugget_ratio_matters_exact; auto; [apply Rdiv_lt_0_compat; lra|lra].
  - rewrite ER, Nu, Nu'. f_equal; field; lra.
Qed.
Print Assumptions C132_season_enters_through_range_exact.

(** the stored variances are those of the estimate; for other weights adding up to 1 they differ by a quadratic form *)
Theorem C132_variance_exact :
  forall vg g inv x y z rows cols gx gy zi sg k, real_variogram vg g -> exact_inv inv -> setting x y z rows cols gx gy ->
  kriged vg inv x y z rows cols gx gy zi sg -> (k < rows * cols)%nat ->
  let n := List.length x in let p := rget (concat gx) k in let q := rget (concat gy) k in
  exists w, tot w n = 1 /\ rget zi k = tot (fun i => w i * rget z i) n /\ rget sg k = est_var g x y p q w /\
    forall v, tot v n = 1 ->
      est_var g x y p q v = rget sg k - tot (fun i => tot (fun j => (v i - w i) * (v j - w j) * gam g x y i j) n) n.
Proof.
  intros vg g inv x y z rows cols gx gy zi sg k V I (LY & LZ & N2 & GX & GY). exact (krige_variance vg g inv x y rows cols gx gy V I LY N2 GX GY z zi sg k LZ).
Qed.
Print Assumptions C132_variance_exact.

(** a single valid station raises, whatever the settings *)
Theorem C132_single_station_raises :
  forall vg inv a b v rows cols gx gy, krige_raises vg inv [a] [b] [v] rows cols gx gy ValueError.
Proof. exact krige_single. Qed.
Print Assumptions C132_single_station_raises.

(** without nugget two stations at one place make the matrix singular *)
Theorem C132_two_stations_at_one_place_raise_exact :
  forall sill range inv x y z rows cols gx gy i j, 0 < range -> exact_inv inv -> setting x y z rows cols gx gy ->
  (i < j < List.length x)%nat -> rget x i = rget x j -> rget y i = rget y j ->
  krige_raises (sph sill range 0) inv x y z rows cols gx gy OtherError.
Proof.
  intros sill range inv x y z rows cols gx gy i j HR I (LY & LZ & N2 & GX & GY) Hij EX EY.
  apply (krige_duplicate _ (spherical_curve sill range 0) inv x y z rows cols gx gy i j); auto; [apply sph_real; auto|apply sph_0; auto].
Qed.
Print Assumptions C132_two_stations_at_one_place_raise_exact.
Example C132_case_same_place : krige_raises (sph (9 / 10) 1 0) exact_inverse [0; 1; 0] [5; 5; 5] [1; 2; 1] 1 1 [[3]] [[3]] OtherError.
Proof.
  apply (C132_two_stations_at_one_place_raise_exact _ _ _ _ _ _ _ _ _ _ 0 2); [lra|exact exact_inverse_ok| |split; [apply le_S, le_n|apply le_n]|reflexivity|reflexivity].
  repeat split; try (intros r [<-|[]]; reflexivity). apply le_S, le_n.
Qed.

(** *** negative rain from the default settings *)
Theorem C132_negative_rain_refuted :
  forall inv, exact_inv inv ->
  exists sg, kriged (sph (9 / 10) 1 (1 / 10)) inv C132_x [0; 0; 0] [100; 0; 0] 1 1 [[4 / 5]] [[0]] [- 61400 / 121239] sg.
Proof.
  intros inv I. destruct C132_gam as (G01 & G02 & G12 & GD & P0 & P1 & P2).
  assert (V : real_variogram (sph (9 / 10) 1 (1 / 10)) C132_curve) by (apply sph_real; lra).
  assert (G10 : gam C132_curve C132_x [0; 0; 0] 1 0 = gam C132_curve C132_x [0; 0; 0] 0 1) by apply gam_sym.
  assert (G20 : gam C132_curve C132_x [0; 0; 0] 2 0 = gam C132_curve C132_x [0; 0; 0] 0 2) by apply gam_sym.
  assert (G21 : gam C132_curve C132_x [0; 0; 0] 2 1 = gam C132_curve C132_x [0; 0; 0] 1 2) by apply gam_sym.
  assert (GR : forall a, is_grid 1 1 [[a]]) by (intros a; split; [reflexivity|intros r [<-|[]]; reflexivity]).
  set (w := fun i : nat => match i with O => - 614 / 121239 | S O => 17705 / 40413 | _ => 68738 / 121239 end).
  set (mu := - 859197 / 8419375).
  exists [tot (fun i => w i * gam0 C132_curve C132_x [0; 0; 0] (4 / 5) 0 i) 3 - mu].
  apply (kriged_intro (sph (9 / 10) 1 (1 / 10)) C132_curve inv C132_x [0; 0; 0] 1 1 [[4 / 5]] [[0]] V I eq_refl); [apply le_S, le_n|apply GR|apply GR|reflexivity| |reflexivity|reflexivity|].
  - exact C132_regular.
  - intros k Hk. assert (k = 0%nat) as -> by lia. exists w, mu. change (List.length C132_x) with 3%nat.
    change (rget (concat [[4 / 5]]) 0) with (4 / 5). change (rget (concat [[0]]) 0) with 0.
    split; [|split; [|reflexivity]].
    + split; change (List.length C132_x) with 3%nat; [rewrite tot3; unfold w; lra|].
      intros i Hi. rewrite tot3. destruct i as [|[|[|]]]; [| | |lia]; rewrite GD, ?P0, ?P1, ?P2, ?G10, ?G20, ?G21, ?G01, ?G02, ?G12; unfold w, mu; lra.
    + rewrite tot3. unfold w, rget, get. cbn [nth]. lra.
Qed.
Print Assumptions C132_negative_rain_refuted.
Example C132_case_negative : exists sg, C132_call [100; 0; 0] [4 / 5] [0] [- 61400 / 121239] sg /\ - 61400 / 121239 < 0.
Proof. destruct (C132_negative_rain_refuted _ exact_inverse_ok) as [sg K]. exists sg. split; [exact K|lra]. Qed.
