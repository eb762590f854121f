(** Kriging with the nearest stations and the spherical variogram. *)
From Coq Require Import List ZArith Bool Reals Lra Lia Permutation.
From Verif Require Import Base Num NumF64 NumList NpOps RealSpec RealStat SpecGram_proofs5 Idw_spec Kriging_model
  OrdKrige_model LinAlg PosDef PosDef2 OrdKrige_spec OrdKrige_proofs OrdKrige_proofs2 OrdKrige_proofs3 OrdKrigePd_proofs KrigeWin_model KrigeWin_spec
  KrigeWin_proofs KrigeWin_proofs2.
Import ListNotations.
Local Open Scope R_scope.

(** *** the spherical curve *)
Lemma c3_range t : 0 <= t -> 0 <= c3 t <= 1.
Proof.
  intros H. unfold c3. destruct (Rle_dec t 1) as [T|]; [|lra]. assert (0 <= t ^ 3 <= t).
  { replace (t ^ 3) with (t * (t * t)) by ring. split; [apply Rmult_le_pos; [lra|apply Rle_0_sqr]|]. rewrite <- (Rmult_1_r t) at 4. apply Rmult_le_compat_l; [lra|]. nra. }
  split; [|lra]. replace (1 - 3 / 2 * t + 1 / 2 * t ^ 3) with ((1 - t) * (1 - t) * (1 + t / 2)) by field. apply Rmult_le_pos; [apply Rle_0_sqr|lra].
Qed.
Lemma c3_dec s t : 0 <= s <= t -> c3 t <= c3 s.
Proof.
  intros [H1 H2]. destruct (Rle_dec t 1) as [T|T].
  - unfold c3. destruct (Rle_dec t 1); [|lra]. destruct (Rle_dec s 1); [|lra].
    assert (E : 1 - 3 / 2 * s + 1 / 2 * s ^ 3 - (1 - 3 / 2 * t + 1 / 2 * t ^ 3) = / 2 * ((t - s) * (3 - (t * t + t * s + s * s)))) by field.
    assert (t * t <= 1) by nra. assert (t * s <= 1) by nra. assert (s * s <= 1) by nra.
    assert (0 <= (t - s) * (3 - (t * t + t * s + s * s))) by (apply Rmult_le_pos; lra). lra.
  - pose proof (c3_range s H1). unfold c3 at 1. destruct (Rle_dec t 1); [contradiction|lra].
Qed.
Lemma c3_poly t : t <= 1 -> c3 t = 1 - 3 / 2 * t + 1 / 2 * t ^ 3.
Proof. intros H. unfold c3. destruct (Rle_dec t 1); [reflexivity|contradiction]. Qed.
(** 1 - c3 is subadditive *)
Lemma c3_sub a b c : 0 <= a -> 0 <= b -> 0 <= c -> a <= b + c -> c3 b + c3 c - c3 a <= 1.
Proof.
  intros A B C H. assert (S : forall b c, 0 <= b -> 0 <= c -> b + c <= 1 -> c3 b + c3 c - c3 (b + c) <= 1).
  { clear. intros b c B C H. rewrite !c3_poly by lra. assert (0 <= b * c * (b + c)) by (repeat apply Rmult_le_pos; lra). nra. }
  pose proof (c3_range a A). pose proof (c3_range b B). pose proof (c3_range c C).
  destruct (Rle_dec 1 b) as [B1|B1].
  { assert (c3 b = 0). { destruct (Req_dec b 1) as [->|]; [rewrite c3_poly by lra; lra|]. unfold c3. destruct (Rle_dec b 1); lra. } lra. }
  destruct (Rle_dec (b + c) 1) as [L|L].
  - pose proof (S b c B C L). pose proof (c3_dec a (b + c) ltac:(lra)). lra.
  - pose proof (S b (1 - b) B ltac:(lra) ltac:(lra)). replace (b + (1 - b)) with 1 in H3 by ring. pose proof (c3_dec (1 - b) c ltac:(lra)).
    assert (c3 1 = 0) by (rewrite c3_poly by lra; lra). lra.
Qed.

Section Sph.
Variables (sill range nugget : R).
Hypothesis HR : 0 < range.
Hypothesis HN : 0 <= nugget <= sill.
Notation g := (spherical_curve sill range nugget).
Lemma sph_sub a b c : 0 <= a -> 0 <= b -> 0 <= c -> a <= b + c -> g a <= g b + g c.
Proof using HR HN.
  intros A B C H. rewrite !curve_c3 by auto. assert (D : forall t, 0 <= t -> 0 <= t / range) by (intros; apply Rmult_le_pos; [auto|left; apply Rinv_0_lt_compat; auto]).
  assert (E : c3 (b / range) + c3 (c / range) - c3 (a / range) <= 1).
  { apply c3_sub; auto. apply (Rmult_le_reg_r range); auto. replace (a / range * range) with a by (field; lra).
    replace ((b / range + c / range) * range) with (b + c) by (field; lra). exact H. }
  assert ((sill - nugget) * (c3 (b / range) + c3 (c / range) - c3 (a / range)) <= (sill - nugget) * 1) by (apply Rmult_le_compat_l; lra). lra.
Qed.
Lemma sph_nonneg a : 0 <= a -> 0 <= g a.
Proof using HR HN.
  intros A. rewrite curve_c3 by auto. pose proof (c3_range (a / range) ltac:(apply Rmult_le_pos; [auto|left; apply Rinv_0_lt_compat; auto])).
  assert ((sill - nugget) * c3 (a / range) <= (sill - nugget) * 1) by (apply Rmult_le_compat_l; lra). lra.
Qed.
Lemma rdist_triangle a b c d e f : rdist a b c d <= rdist a b e f + rdist e f c d.
Proof using. clear.
  unfold rdist. pose proof (triangle a b c d e f) as T. unfold dist_euc, Rsqr in T. exact T.
Qed.

(** two stations *)
Lemma two_weights p q x0 y0 x1 y1 w mu : let xs := [x0; x1] in let ys := [y0; y1] in regular g xs ys ->
  (forall i, (i < 2)%nat -> rdist p q (rget xs i) (rget ys i) = 0 \/ 1 / 10 ^ 10 < rdist p q (rget xs i) (rget ys i)) ->
  krige_sys g xs ys p q w mu -> 0 <= w 0%nat <= 1 /\ 0 <= w 1%nat <= 1 /\ w 0%nat + w 1%nat = 1.
Proof using HR HN.
  intros xs ys RG Far (S1 & S2). change (List.length xs) with 2%nat in *.
  pose proof (S2 0%nat ltac:(lia)) as A. pose proof (S2 1%nat ltac:(lia)) as B. rewrite !tot_S in *. change (tot (fun i => w i) 0) with 0 in *.
  assert (T0 : forall f, tot f 0 = 0) by reflexivity. rewrite !T0 in *.
  set (G := g (rdist x0 y0 x1 y1)).
  change (gam g xs ys 0 0) with 0 in A. change (gam g xs ys 0 1) with G in A. change (gam g xs ys 1 1) with 0 in B.
  change (gam g xs ys 1 0) with (g (rdist x1 y1 x0 y0)) in B. rewrite (rdist_sym x1 y1 x0 y0) in B. fold G in B.
  assert (G0 : 0 <= G) by (apply sph_nonneg, sqrt_pos).
  assert (GP : 0 < G).
  { destruct (Req_dec G 0) as [Z|]; [exfalso|lra]. destruct (RG (fun i => if Nat.eqb i 0 then 1 else -1) 0) as [W _].
    - change (List.length xs) with 2%nat. rewrite !tot_S, T0. cbn [Nat.eqb]. ring.
    - change (List.length xs) with 2%nat. intros [|[|i]] Hi; [| |lia]; rewrite !tot_S, T0; cbn [Nat.eqb].
      + change (gam g xs ys 0 0) with 0. change (gam g xs ys 0 1) with G. rewrite Z. ring.
      + change (gam g xs ys 1 1) with 0. change (gam g xs ys 1 0) with (g (rdist x1 y1 x0 y0)). rewrite (rdist_sym x1 y1 x0 y0). fold G. rewrite Z. ring.
    - specialize (W 0%nat ltac:(change (List.length xs) with 2%nat; lia)). cbn in W. lra. }
  pose proof (Far 0%nat ltac:(lia)) as F0. pose proof (Far 1%nat ltac:(lia)) as F1. unfold gam0 in A, B. cbv zeta in A, B.
  set (d0 := rdist p q (rget xs 0) (rget ys 0)) in *. set (d1 := rdist p q (rget xs 1) (rget ys 1)) in *.
  change (rget xs 0) with x0 in d0. change (rget ys 0) with y0 in d0. change (rget xs 1) with x1 in d1. change (rget ys 1) with y1 in d1.
  assert (P0 : 0 <= d0) by apply sqrt_pos. assert (P1 : 0 <= d1) by apply sqrt_pos.
  assert (E01 : forall a b c d, rdist a b c d = 0 -> a = c /\ b = d).
  { clear. intros a b c d E. unfold rdist in E. apply sqrt_eq_0 in E; [|apply Rplus_le_le_0_compat; apply Rle_0_sqr].
    pose proof (Rle_0_sqr (a - c)). pose proof (Rle_0_sqr (b - d)). unfold Rsqr in *. 
    assert (Z1 : (a - c) * (a - c) = 0) by lra. assert (Z2 : (b - d) * (b - d) = 0) by lra. apply Rmult_integral in Z1, Z2. lra. }
  assert (H : exists a b, tot (fun _ => 0) 0 + 0 * w 0%nat + G * w 1%nat - mu = a /\ G * w 0%nat - mu = b /\ Rabs (a - b) <= G).
  { rewrite T0. exists (if Rle_dec d0 (1 / 10 ^ 10) then 0 else g d0), (if Rle_dec d1 (1 / 10 ^ 10) then 0 else g d1). split; [lra|]. split; [lra|].
    pose proof (rdist_triangle p q x0 y0 x1 y1) as TA. pose proof (rdist_triangle p q x1 y1 x0 y0) as TB. rewrite (rdist_sym x1 y1 x0 y0) in TA. fold d0 d1 in TA, TB.
    destruct (Rle_dec d0 (1 / 10 ^ 10)), (Rle_dec d1 (1 / 10 ^ 10)).
    - rewrite Rminus_0_r, Rabs_R0. lra.
    - destruct F0 as [F0|F0]; [|lra]. apply E01 in F0 as [-> ->]. rewrite Rminus_0_l, Rabs_Ropp, Rabs_pos_eq by (apply sph_nonneg; auto). unfold G, d1. lra.
    - destruct F1 as [F1|F1]; [|lra]. apply E01 in F1 as [-> ->]. rewrite Rminus_0_r, Rabs_pos_eq by (apply sph_nonneg; auto). unfold G, d0. rewrite (rdist_sym x1 y1 x0 y0). lra.
    - pose proof (sph_sub d0 d1 (rdist x0 y0 x1 y1) P0 P1 ltac:(apply sqrt_pos) ltac:(lra)) as Q1. pose proof (sph_sub d1 d0 (rdist x0 y0 x1 y1) P1 P0 ltac:(apply sqrt_pos) ltac:(lra)) as Q2.
      fold G in Q1, Q2. apply Rabs_le. lra. }
  destruct H as (a & b & EA & EB & LE). rewrite T0 in EA.
  assert (D : G * (w 1%nat - w 0%nat) = a - b) by lra.
  assert (R1 : - G <= G * (w 1%nat - w 0%nat) <= G). { rewrite D. split; [pose proof (Rabs_Ropp (a - b)); pose proof (Rle_abs (- (a - b))); lra|pose proof (Rle_abs (a - b)); lra]. }
  assert (-1 <= w 1%nat - w 0%nat) by (apply (Rmult_le_reg_l G); lra). assert (w 1%nat - w 0%nat <= 1) by (apply (Rmult_le_reg_l G); lra).
  lra.
Qed.
End Sph.
