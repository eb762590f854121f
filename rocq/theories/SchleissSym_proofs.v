(** * Schleiss wet antenna attenuation in exact arithmetic: real recurrence, scaling, order *)
From Coq Require Import List ZArith Bool Lia Reals Lra.
From Flocq Require Import Core.Raux.
From Verif Require Import Base Num NumList RealSpec Schleiss_model Schleiss_spec Schleiss_proofs Restart_proofs.
Import ListNotations.
Local Open Scope nat_scope.

Lemma xr_py_min a b : py_min (XFin a : XR) (XFin b : XR) = XFin (Rmin a b).
Proof.
  unfold py_min. change (n_ltb (XFin b : XR) (XFin a : XR)) with (xltb (XFin b) (XFin a)). simpl.
  unfold Rmin. destruct (Rle_dec a b); [rewrite Rlt_bool_false by lra|rewrite Rlt_bool_true by lra]; reflexivity.
Qed.

Lemma Rmin_scale k a b : (0 <= k)%R -> (k * Rmin a b = Rmin (k * a) (k * b))%R.
Proof.
  intros Hk. unfold Rmin. destruct (Rle_dec a b), (Rle_dec (k * a) (k * b)); auto; nra.
Qed.

Definition rstep (A m w q : R) (one : bool) : R := if one then Rmin (Rmin A m) (w + (m - w) * q) else Rmin A m.

Section One.
Variables (rsl baseline wet : list R) (m dt tau : R).
Hypothesis (L1 : length baseline = length rsl) (L2 : length wet = length rsl) (Ht : tau <> 0%R).
Notation run := (waa_schleiss_2013 (ofR rsl) (ofR baseline) (ofR wet) (XFin m : XR) (XFin dt : XR) (XFin tau : XR)).

Lemma schleiss_real : exists w : list R, run = Ok (ofR w) /\ length w = length rsl /\
  (0 < length rsl -> rget w 0 = 0%R) /\
  forall i, 1 <= i < length rsl ->
    rget w i = rstep (rget rsl i - rget baseline i) m (rget w (i - 1)) (3 * dt / tau) (Req_bool (rget wet i) 1).
Proof.
  destruct (schleiss_loop (ofR rsl) (ofR baseline) (ofR wet) (XFin m : XR) (XFin dt : XR) (XFin tau : XR)) as (waa & E & LW & W0 & WS);
    [rewrite !ofR_length; auto|rewrite !ofR_length; auto| |].
  { change (xeqb (XFin tau) (XFin 0) = true -> forall i, 1 <= i < length (ofR rsl) -> ~ flag_is_one (ofR wet) i).
    simpl. rewrite Req_bool_false by auto. discriminate. }
  rewrite ofR_length in LW, W0, WS.
  assert (G : forall i, i < length rsl -> exists r, get (n_nan : XR) waa i = XFin r /\
     (1 <= i -> r = rstep (rget rsl i - rget baseline i) m (match get (n_nan : XR) waa (i - 1) with XFin x => x | _ => 0%R end) (3 * dt / tau) (Req_bool (rget wet i) 1))).
  { induction i as [|i IH]; intros Hi.
    - exists 0%R. rewrite W0 by lia. split; [reflexivity|lia].
    - destruct IH as (r & Er & _); [lia|]. rewrite (WS (S i)) by lia. cbv zeta.
      replace (S i - 1) with i by lia. rewrite Er. unfold atten. rewrite !ofR_get by lia.
      change (n_sub (XFin (rget rsl (S i)) : XR) (XFin (rget baseline (S i)) : XR)) with (XFin (rget rsl (S i) - rget baseline (S i)) : XR).
      change (n_eqb (XFin (rget wet (S i)) : XR) (n_ofZ 1)) with (Req_bool (rget wet (S i)) 1).
      unfold rstep. destruct (Req_bool (rget wet (S i)) 1).
      + rewrite xr_relaxed by auto. rewrite !xr_py_min. eexists. split; reflexivity.
      + rewrite xr_py_min. eexists. split; reflexivity. }
  exists (map (fun x : XR => match x with XFin r => r | _ => 0%R end) waa).
  assert (GW : forall i, i < length rsl -> rget (map (fun x : XR => match x with XFin r => r | _ => 0%R end) waa) i =
     match get (n_nan : XR) waa i with XFin x => x | _ => 0%R end).
  { intros i Hi. unfold rget. rewrite get_map with (d := (n_nan : XR)) by lia. reflexivity. }
  split; [|split; [rewrite map_length; auto|split]].
  - rewrite E. f_equal. apply get_ext with (d := (n_nan : XR)); [unfold ofR; rewrite !map_length; auto|].
    intros i Hi. rewrite LW in Hi. rewrite ofR_get by (rewrite map_length; lia). rewrite GW by auto.
    destruct (G i Hi) as (r & Er & _). rewrite Er. reflexivity.
  - intros H. rewrite GW by auto. rewrite W0 by auto. reflexivity.
  - intros i Hi. rewrite !GW by lia. destruct (G i) as (r & Er & Q); [lia|]. rewrite Er. apply Q. lia.
Qed.
End One.

Lemma schleiss_scale k (rsl baseline wet : list R) m dt tau :
  length baseline = length rsl -> length wet = length rsl -> tau <> 0%R -> (0 <= k)%R ->
  exists w : list R,
    waa_schleiss_2013 (ofR rsl) (ofR baseline) (ofR wet) (XFin m : XR) (XFin dt : XR) (XFin tau : XR) = Ok (ofR w) /\
    waa_schleiss_2013 (ofR (map (Rmult k) rsl)) (ofR (map (Rmult k) baseline)) (ofR wet) (XFin (k * m) : XR) (XFin dt : XR) (XFin tau : XR) =
      Ok (ofR (map (Rmult k) w)).
Proof.
  intros L1 L2 Ht Hk.
  destruct (schleiss_real rsl baseline wet m dt tau L1 L2 Ht) as (w & E & LW & W0 & WS).
  destruct (schleiss_real (map (Rmult k) rsl) (map (Rmult k) baseline) wet (k * m) dt tau) as (w' & E' & LW' & W0' & WS');
    [rewrite !map_length; auto|rewrite map_length; auto|auto|].
  exists w. split; auto. rewrite E'. f_equal. f_equal. rewrite map_length in *.
  assert (GM : forall l i, i < length l -> rget (map (Rmult k) l) i = (k * rget l i)%R) by (intros; unfold rget; apply get_map; auto).
  apply get_ext with (d := 0%R); [rewrite map_length; lia|]. rewrite LW'. intros i Hi.
  change (rget w' i = rget (map (Rmult k) w) i). rewrite GM by lia.
  induction i as [|i IH]; [rewrite W0, W0' by lia; ring|].
  rewrite (WS (S i)), (WS' (S i)) by lia. replace (S i - 1) with i by lia. rewrite IH by lia. rewrite !GM by lia.
  unfold rstep. destruct (Req_bool (rget wet (S i)) 1).
  - rewrite !Rmin_scale by auto. f_equal; [f_equal|]; ring.
  - rewrite Rmin_scale by auto. f_equal; ring.
Qed.

Lemma rstep_mono A A' m m' w w' q one :
  (0 <= q <= 1)%R -> (A <= A')%R -> (m <= m')%R -> (w <= w')%R -> (rstep A m w q one <= rstep A' m' w' q one)%R.
Proof.
  intros Hq HA Hm Hw. unfold rstep.
  assert (w + (m - w) * q <= w' + (m' - w') * q)%R by nra.
  assert (Rmin A m <= Rmin A' m')%R by (unfold Rmin; destruct (Rle_dec A m), (Rle_dec A' m'); lra).
  destruct one; auto. unfold Rmin at 1 3. destruct (Rle_dec (Rmin A m) _), (Rle_dec (Rmin A' m') _); lra.
Qed.

Lemma schleiss_monotone (rsl1 bl1 rsl2 bl2 wet : list R) m1 m2 dt tau w1 w2 :
  length bl1 = length rsl1 -> length wet = length rsl1 -> length rsl2 = length rsl1 -> length bl2 = length rsl1 ->
  tau <> 0%R -> (0 <= 3 * dt / tau <= 1)%R -> (m1 <= m2)%R ->
  (forall i, i < length rsl1 -> (rget rsl1 i - rget bl1 i <= rget rsl2 i - rget bl2 i)%R) ->
  waa_schleiss_2013 (ofR rsl1) (ofR bl1) (ofR wet) (XFin m1 : XR) (XFin dt : XR) (XFin tau : XR) = Ok (ofR w1) ->
  waa_schleiss_2013 (ofR rsl2) (ofR bl2) (ofR wet) (XFin m2 : XR) (XFin dt : XR) (XFin tau : XR) = Ok (ofR w2) ->
  forall i, i < length rsl1 -> (rget w1 i <= rget w2 i)%R.
Proof.
  intros L1 L2 L3 L4 Ht Hq Hm HA E1 E2.
  destruct (schleiss_real rsl1 bl1 wet m1 dt tau L1 L2 Ht) as (v1 & F1 & LW1 & W01 & WS1).
  destruct (schleiss_real rsl2 bl2 wet m2 dt tau) as (v2 & F2 & LW2 & W02 & WS2); try congruence.
  assert (INJ : forall a b : list R, ofR a = ofR b -> a = b).
  { induction a as [|x a IH]; intros [|y b] Q; try discriminate; auto. injection Q as Q1 Q2. f_equal; auto. }
  rewrite E1 in F1. injection F1 as F1. apply INJ in F1. subst v1. rewrite E2 in F2. injection F2 as F2. apply INJ in F2. subst v2.
  rewrite L3 in *. induction i as [|i IH]; intros Hi; [rewrite W01, W02 by lia; lra|].
  rewrite (WS1 (S i)), (WS2 (S i)) by lia. replace (S i - 1) with i by lia. apply rstep_mono; auto. apply IH. lia.
Qed.
