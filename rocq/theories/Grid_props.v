(** * Properties C45, C46: grid generation, climatological variogram *)
From Coq Require Import List ZArith Bool Reals Lra Lia.
From Flocq Require Import Core.Raux Core.Generic_fmt.
From Verif Require Import Base Grid_model Grid_spec Grid_proofs.
Import ListNotations.
Local Open Scope R_scope.

Theorem C45_generated_grid_covers_exact : forall x y xg yg r, xg = None \/ yg = None -> x <> [] -> y <> [] -> 0 < r ->
  exists xc yc xgrid ygrid, parse_grid_kwargs x y xg yg (Some r) = Ok (xgrid, ygrid) /\ covers x r xc /\ covers y r yc /\
  length xgrid = length yc /\ length ygrid = length yc /\
  forall i j, (i < length yc)%nat -> (j < length xc)%nat ->
    length (get [] xgrid i) = length xc /\ length (get [] ygrid i) = length xc /\
    get 0 (get [] xgrid i) j = get 0 xc j /\ get 0 (get [] ygrid i) j = get 0 yc i.
Proof. exact generated_grid. Qed.
Print Assumptions C45_generated_grid_covers_exact.

Theorem C45_resolution_required : forall x y xg yg, xg = None \/ yg = None -> parse_grid_kwargs x y xg yg None = Err ValueError.
Proof. exact grid_needs_resolution. Qed.
Print Assumptions C45_resolution_required.

Theorem C45_given_grid_kept : forall x y xg yg r, parse_grid_kwargs x y (Some xg) (Some yg) r = Ok (xg, yg).
Proof. exact grid_given. Qed.
Print Assumptions C45_given_grid_kept.

(** without stations there is no grid *)
Theorem C45_no_stations : forall x y xg yg r, xg = None \/ yg = None -> x = [] \/ r <> 0 /\ y = [] -> parse_grid_kwargs x y xg yg (Some r) = Err ValueError.
Proof.
  intros x y xg yg r G H. assert (E : parse_grid_kwargs x y xg yg (Some r) = parse_grid_kwargs x y None None (Some r)) by (destruct G; subst; [reflexivity|destruct xg; reflexivity]).
  rewrite E. unfold parse_grid_kwargs. destruct x as [|a x]; [reflexivity|]. destruct H as [H|(R0 & ->)]; [discriminate|]. cbn [py_list_min py_list_max bind]. unfold arange. rewrite Req_bool_false by auto. reflexivity.
Qed.
Print Assumptions C45_no_stations.

(** stations at 0 and 10 (and all at y = 5), resolution 3; a lone ygrid is ignored *)
Example C45_case : parse_grid_kwargs [0; 10] [5; 5] None (Some []) (Some 3) =
  Ok ([[-3; 0; 3; 6; 9; 12]; [-3; 0; 3; 6; 9; 12]], [[2; 2; 2; 2; 2; 2]; [5; 5; 5; 5; 5; 5]]).
Proof.
  unfold parse_grid_kwargs. cbn [py_list_min py_list_max fold_left bind].
  assert (E1 : Rmin 0 10 = 0) by (unfold Rmin; destruct (Rle_dec 0 10); lra).
  assert (E2 : Rmax 0 10 = 10) by (unfold Rmax; destruct (Rle_dec 0 10); lra).
  assert (E3 : Rmin 5 5 = 5) by (unfold Rmin; destruct (Rle_dec 5 5); lra).
  assert (E4 : Rmax 5 5 = 5) by (unfold Rmax; destruct (Rle_dec 5 5); lra).
  rewrite E1, E2, E3, E4. unfold arange. rewrite Req_bool_false by lra.
  assert (Z1 : Zceil ((10 + 3 - (0 - 3)) / 3) = 6%Z) by (apply Zceil_imp; simpl; lra).
  assert (Z2 : Zceil ((5 + 3 - (5 - 3)) / 3) = 2%Z) by (apply Zceil_imp; simpl; lra).
  rewrite Z1, Z2. change (Z.to_nat 6) with 6%nat. change (Z.to_nat 2) with 2%nat. cbn [bind seq map].
  unfold meshgrid. cbn [length repeat map]. simpl INR.
  repeat f_equal; lra.
Qed.

Theorem C46_variogram_exact : forall jd h, 0 < h ->
  exists v, clim_var_param jd h = Ok v /\ 0 <= v_sill v /\ 0 <= v_range v /\ v_nugget v = v_sill v / 10.
Proof. exact clim_var_general. Qed.
Print Assumptions C46_variogram_exact.

Theorem C46_variogram_bounds_exact : forall jd h, 1 / 60 <= h ->
  exists v, clim_var_param jd h = Ok v /\
  0 < (84 / 100 * Rpower h (- (25 / 100)) - 20 / 100 * Rpower h (- (37 / 100))) ^ 4 <= v_sill v /\
  v_sill v <= (84 / 100 * Rpower h (- (25 / 100)) + 20 / 100 * Rpower h (- (37 / 100))) ^ 4 /\
  0 < (1551 / 100 * Rpower h (9 / 100) - 206 / 100 * Rpower h (- (12 / 100))) ^ 4 / 1000 <= v_range v /\
  v_range v <= (1551 / 100 * Rpower h (9 / 100) + 206 / 100 * Rpower h (- (12 / 100))) ^ 4 / 1000.
Proof. exact clim_var_bounds. Qed.
Print Assumptions C46_variogram_bounds_exact.

Theorem C46_day_of_year : forall y m d, (1 <= m <= 12)%nat -> (1 <= d <= 31)%nat -> (1 <= julian_day y m d <= 366)%Z.
Proof. exact julian_day_range. Qed.
Print Assumptions C46_day_of_year.

Theorem C46_day_of_year_counts_days : forall y m d,
  (forall k, day_number y m d k -> julian_day y m d = k) /\
  (forall n, days_in_month y m n -> (1 <= d <= n)%nat -> day_number y m d (julian_day y m d)).
Proof. exact (fun y m d => conj (julian_day_counts y m d) (fun n => julian_day_total y m d n)). Qed.
Print Assumptions C46_day_of_year_counts_days.
Example C46_case_days : day_number 2024 3 1 61 /\ day_number 2023 3 1 60.
Proof.
  split; [apply (julian_day_total 2024 3 1 31)|apply (julian_day_total 2023 3 1 31)]; try lia; left; simpl; auto.
Qed.

(** hourly rain on any day: the sill lies between 0.64^4 and 1.04^4, the range between 32 km and 96 km *)
Example C46_case : julian_day 2013 4 4 = 94%Z /\ julian_day 2000 12 31 = 366%Z /\ julian_day 1900 12 31 = 365%Z /\
  forall jd, exists v, clim_var_param jd 1 = Ok v /\ 16 / 100 <= v_sill v <= 118 / 100 /\ 32 <= v_range v <= 96.
Proof.
  split; [reflexivity|]. split; [reflexivity|]. split; [reflexivity|]. intros jd.
  destruct (clim_var_bounds jd 1 ltac:(lra)) as (v & E & B). exists v. split; auto.
  assert (P : forall a, Rpower 1 a = 1) by (intros; unfold Rpower; rewrite ln_1, Rmult_0_r; apply exp_0).
  rewrite !P in B. destruct B as ([_ B1] & B2 & [_ B3] & B4). lra.
Qed.
