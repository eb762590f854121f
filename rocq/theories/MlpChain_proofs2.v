From Coq Require Import List ZArith Bool String Lia Reals.
From Verif Require Import Base Num NumList Median Mlp_model Baseline_model Shift_spec Shift_proofs MlpChain_model.
Import ListNotations.
Local Open Scope nat_scope.
Local Notation length := List.length.

(** a constant offset per channel *)
Lemma center_shift c bn w k (x : list XR) : 1 <= k ->
  rolling_median_center bn w k (map (sh c) x) = (do m <- rolling_median_center bn w k x; Ok (map (sh c) m)).
Proof.
  intros Hk. unfold rolling_median_center. rewrite map_length. destruct (bn && Nat.ltb (length x + (w / 2 - 1)) w); auto. cbn [bind]. f_equal.
  rewrite map_map. apply map_ext. intros s. rewrite slice_map, not_nan_shift, map_length. cbv zeta.
  destruct (Nat.ltb_spec (length (not_nan (slice (s - w / 2) (s + w / 2) x))) k); [reflexivity|].
  apply median_shift. intros Q. rewrite Q in *. cbn in *. lia.
Qed.
Lemma diff1_shift c (x : list XR) : diff1 (map (sh c) x) = diff1 x.
Proof. unfold diff1. rewrite map_length. apply map_ext. intros i. rewrite !nget_shift. apply sh_sub. Qed.
Lemma mlp_shift predict bn (x1 x2 : list XR) sel c d : mlp_wet_dry predict bn (off c x1) (off d x2) sel = mlp_wet_dry predict bn x1 x2 sel.
Proof.
  unfold mlp_wet_dry. destruct (negb _); auto. rewrite !off_sh.
  assert (ON : design_online (map (sh c) x1) (map (sh d) x2) = design_online x1 x2) by (unfold design_online; rewrite !diff1_shift; reflexivity).
  assert (OF : design_offline bn (map (sh c) x1) (map (sh d) x2) = design_offline bn x1 x2).
  { unfold design_offline. rewrite !center_shift by lia.
    destruct (rolling_median_center bn (12 * 60) (2 * 60) x1) as [m1|e]; cbn [bind]; auto.
    destruct (rolling_median_center bn (12 * 60) (2 * 60) x2) as [m2|e]; cbn [bind]; auto. rewrite !map2_sub_shift. reflexivity. }
  rewrite ON, OF. reflexivity.
Qed.
Lemma chain_offset predict bn sel n (x1 x2 : list XR) c d :
  mlp_baselines predict bn sel n (off c x1) (off d x2) = (do r <- mlp_baselines predict bn sel n x1 x2; Ok (fst r, (off c (fst (snd r)), off d (snd (snd r))))).
Proof.
  unfold mlp_baselines, mlp_flags. rewrite mlp_shift. destruct (mlp_wet_dry predict bn x1 x2 sel) as [rows|e]; cbn [bind]; auto. rewrite !baseline_shift.
  destruct (baseline_constant x1 _ n) as [b1|e]; cbn [bind]; auto. destruct (baseline_constant x2 _ n) as [b2|e]; cbn [bind fst snd]; auto.
Qed.
