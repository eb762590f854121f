(** Proofs: kriging in another unit of length. *)
From Coq Require Import List ZArith Bool Reals Lra Lia.
From Verif Require Import Base Num RealSpec RealStat SpecGram_proofs5 Grid_model Grid_proofs Idw_spec Kriging_model OrdKrige_model LinAlg OrdKrige_spec
  OrdKrige_proofs OrdKrige_proofs2 OrdKrige_proofs3.
Import ListNotations.
Local Open Scope R_scope.

Lemma krige_variograms vg g vg' g' inv x y z rows cols gx gy x' y' gx' gy' zi sg :
  real_variogram vg g -> real_variogram vg' g' -> exact_inv inv -> List.length y = List.length x -> List.length z = List.length x ->
  List.length x' = List.length x -> List.length y' = List.length x -> (2 <= List.length x)%nat ->
  is_grid rows cols gx -> is_grid rows cols gy -> is_grid rows cols gx' -> is_grid rows cols gy' ->
  (forall i j, (i < List.length x)%nat -> (j < List.length x)%nat -> gam g' x' y' i j = gam g x y i j) ->
  (forall k i, (k < rows * cols)%nat -> (i < List.length x)%nat ->
     gam0 g' x' y' (rget (concat gx') k) (rget (concat gy') k) i = gam0 g x y (rget (concat gx) k) (rget (concat gy) k) i) ->
  kriged vg inv x y z rows cols gx gy zi sg -> kriged vg' inv x' y' z rows cols gx' gy' zi sg.
Proof.
  intros VG VG' INV LY LZ LX' LY' N2 GX GY GX' GY' EG E0 K. rewrite <- (map_one sg).
  apply (transport vg vg' g g' inv inv x y z x' y' z rows cols rows cols gx gy gx' gy' 1); auto.
  - intros RG w mu H1 H2. rewrite LX' in *. apply RG; [exact H1|]. intros i Hi. rewrite <- (H2 i Hi). f_equal. apply tot_ext. intros j Hj. rewrite EG by auto. reflexivity.
  - intros k w mu Hk S. exists w, mu. split; [|split; [reflexivity|]].
    + destruct S as [S1 S2]. split; rewrite LX'; [exact S1|]. intros i Hi. rewrite E0 by auto. rewrite <- (S2 i Hi). f_equal. apply tot_ext. intros j Hj. rewrite EG by auto. reflexivity.
    + rewrite Rmult_1_l. f_equal. apply tot_ext. intros i Hi. rewrite E0 by auto. reflexivity.
Qed.

Lemma rdist_unit c a b a' b' : 0 < c -> rdist (c * a) (c * b) (c * a') (c * b') = c * rdist a b a' b'.
Proof.
  intros C. unfold rdist. replace (_ + _) with (c * c * ((a - a') * (a - a') + (b - b') * (b - b'))) by ring.
  rewrite sqrt_mult_alt by nra. rewrite sqrt_square by lra. reflexivity.
Qed.
Lemma rget_unit c l i : rget (map (Rmult c) l) i = c * rget l i.
Proof.
  unfold rget, get. rewrite <- (map_nth (Rmult c) l 0 i). rewrite Rmult_0_r. reflexivity.
Qed.
Lemma concat_unit c (G : list (list R)) : concat (map (map (Rmult c)) G) = map (Rmult c) (concat G).
Proof. symmetry. apply concat_map. Qed.
Lemma curve_unit c sill range nugget d : 0 < c -> 0 < range -> spherical_curve sill (c * range) nugget (c * d) = spherical_curve sill range nugget d.
Proof.
  intros C HR. unfold spherical_curve. replace (c * d / (c * range)) with (d / range) by (field; lra).
  destruct (Rle_dec (c * d) (c * range)) as [A|A], (Rle_dec d range) as [B|B]; auto; exfalso.
  - apply B. apply Rmult_le_reg_l in A; auto.
  - apply A. apply Rmult_le_compat_l; lra.
Qed.
Lemma is_grid_unit c rows cols G : is_grid rows cols G -> is_grid rows cols (map (map (Rmult c)) G).
Proof.
  intros [L H]. split; [rewrite map_length; exact L|]. intros r Hr. apply in_map_iff in Hr as (s & <- & Hs). rewrite map_length. auto.
Qed.

Lemma krige_unit c sill range nugget inv x y z rows cols gx gy zi sg : 0 < c -> 0 < range -> exact_inv inv -> setting x y z rows cols gx gy ->
  (forall k i, (k < rows * cols)%nat -> (i < List.length x)%nat ->
     let d := rdist (rget (concat gx) k) (rget (concat gy) k) (rget x i) (rget y i) in d <= 1 / 10 ^ 10 <-> c * d <= 1 / 10 ^ 10) ->
  kriged (sph sill range nugget) inv x y z rows cols gx gy zi sg ->
  kriged (sph sill (c * range) nugget) inv (map (Rmult c) x) (map (Rmult c) y) z rows cols (map (map (Rmult c)) gx) (map (map (Rmult c)) gy) zi sg.
Proof.
  intros HC HR I (LY & LZ & N2 & GX & GY) T. assert (HR' : 0 < c * range) by (apply Rmult_lt_0_compat; auto).
  apply (krige_variograms _ (spherical_curve sill range nugget) _ (spherical_curve sill (c * range) nugget)); auto; try (apply sph_real; auto); try (rewrite map_length; lia); try (apply is_grid_unit; auto).
  - intros i j Hi Hj. unfold gam. rewrite !rget_unit, rdist_unit, curve_unit by auto. reflexivity.
  - intros k i Hk Hi. unfold gam0. cbv zeta. rewrite !concat_unit, !rget_unit, rdist_unit by auto. specialize (T k i Hk Hi). cbv zeta in T.
    destruct (Rle_dec _ _) as [A|A]; destruct (Rle_dec _ _) as [B|B]; auto; [exfalso; tauto|exfalso; tauto|]. apply curve_unit; auto.
Qed.
