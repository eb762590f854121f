(** * Property C106, continued: how far generated grids are off in binary64 *)
From Coq Require Import List ZArith Bool Reals Lra Lia.
From Flocq Require Import Core.
From Verif Require Import Base Num NumF64 Ulp64 HaversineFloat_spec HaversineFloat_proofs FloatErr_spec Grid_spec Grid64_model Grid64_spec Grid64Err_spec Grid64Err_proofs.
Import ListNotations.
Local Open Scope R_scope.

(** Any coordinates: with [M] at least the largest coordinate plus the
    resolution, and at most 2^30 resolutions, the grid is the exact one up to
    [3 * i + 7] times [M / 2^53] at coordinate [i], and it may end before the
    greatest coordinate by this little only. *)
Theorem C106_float_nearly_covers : forall (x y : list F64) (xs ys : list R) fr r M xg yg, xg = None \/ yg = None ->
  are_nums x xs -> are_nums y ys -> xs <> [] -> ys <> [] -> is_num fr r -> 0 < r ->
  (forall v, In v (xs ++ ys) -> Rabs v + r <= M) -> M <= 2 ^ 30 * r -> bpow radix2 (-900) <= M <= bpow radix2 900 ->
  exists g xc yc zx zy, parse_grid_kwargs x y xg yg (Some fr) = Ok g /\ product_grid xc yc g /\
    values xc zx /\ values yc zy /\ nearly_covers xs r (u64 * M) zx /\ nearly_covers ys r (u64 * M) zy.
Proof. exact float_grid. Qed.
Print Assumptions C106_float_nearly_covers.

(** degrees: with a resolution of at least 0.001 nothing is off by more than a
    millionth of a degree *)
Theorem C106_float_degrees : forall (x y : list F64) (xs ys : list R) fr r xg yg, xg = None \/ yg = None ->
  are_nums x xs -> are_nums y ys -> xs <> [] -> ys <> [] -> is_num fr r -> / 1000 <= r <= 100 ->
  (forall v, In v (xs ++ ys) -> Rabs v <= 360) ->
  exists g xc yc zx zy, parse_grid_kwargs x y xg yg (Some fr) = Ok g /\ product_grid xc yc g /\ values xc zx /\ values yc zy /\
  forall l z, l = xs /\ z = zx \/ l = ys /\ z = zy ->
    exists lo hi, least l lo /\ greatest l hi /\ (2 <= length z)%nat /\
    (forall i, (i < length z)%nat -> Rabs (get 0 z i - (lo - r + INR i * r)) <= / 10 ^ 6) /\
    hi - / 10 ^ 6 <= get 0 z (length z - 1) < hi + r + / 10 ^ 6.
Proof. exact float_grid_degrees. Qed.
Print Assumptions C106_float_degrees.

(** the grid that ends before longitude 11 (C106_grid_covers_stations_refuted) meets the hypotheses *)
Example C106_case_degrees : exists r, is_num (f_div #1 #10) r /\ / 1000 <= r <= 100 /\ are_nums [#10; #11] [10; 11].
Proof.
  destruct (f_val (f_div #1 #10)) as [| |r|] eqn:E; try (exfalso; revert E; vm_compute; discriminate).
  exists r. split; [exact E|]. split; [|constructor; [apply num_ofZ; lia|constructor; [apply num_ofZ; lia|constructor]]].
  change (f_val (f_div #1 #10)) with (f_val (n_div (n_ofZ 1 : F64) (n_ofZ 10 : F64))) in E.
  pose proof (FloatErr_proofs.is_div _ _ _ _ (num_ofZ 1 ltac:(lia)) (num_ofZ 10 ltac:(lia)) ltac:(lra)) as D.
  assert (B : Rabs (1 / 10) <= FloatErr_proofs.big) by (rewrite Rabs_pos_eq by lra; apply Rle_trans with 1; [lra|]; unfold FloatErr_proofs.big; change 1 with (bpow radix2 0); apply bpow_le; lia).
  specialize (D B). unfold is_num in D. rewrite E in D. injection D as ->.
  pose proof (rnd_within (1 / 10) 1 ltac:(change 1 with (bpow radix2 0); apply bpow_le; lia) ltac:(rewrite Rabs_pos_eq; lra)) as W. apply Rabs_le_inv in W. pose proof u64_small. lra.
Qed.
