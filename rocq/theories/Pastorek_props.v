(** * Properties C16, C17, C83: the Pastorek wet antenna functions *)
From Coq Require Import List ZArith Bool String Lia Reals Lra.
From Verif Require Import Base Num NumF64 NumList NpOps Libm Libm64 RealSpec KR_model KR_spec KR_proofs3
  Pastorek_model Pastorek_spec Pastorek_proofs.
Import ListNotations.
Local Open Scope nat_scope.

Theorem C16_pastorek_range_and_monotone :
  forall (Rs : list R) (A_max zeta d : R), (0 < A_max)%R -> (0 < zeta)%R -> (0 < d)%R -> (forall r, In r Rs -> (0 <= r)%R) ->
  exists w : list R,
    waa_pastorek_2021 XRm (SArray (ofR Rs)) (XFin A_max : XR) (XFin zeta : XR) (XFin d : XR) = Ok (ofR w) /\
    List.length w = List.length Rs /\
    (forall i, i < List.length Rs -> (0 <= rget w i < A_max)%R /\ (rget Rs i = 0%R -> rget w i = 0%R)) /\
    (forall i j, i < List.length Rs -> j < List.length Rs -> (rget Rs i < rget Rs j)%R -> (rget w i < rget w j)%R).
Proof. exact pastorek_range. Qed.
Print Assumptions C16_pastorek_range_and_monotone.

Theorem C16_pastorek_formula :
  forall (Rs : list R) (A_max zeta d : R), (0 < zeta)%R -> (forall r, In r Rs -> (0 <= r)%R) ->
  waa_pastorek_2021 XRm (SArray (ofR Rs)) (XFin A_max : XR) (XFin zeta : XR) (XFin d : XR)
  = Ok (ofR (map (wet_antenna A_max zeta d) Rs)).
Proof. exact pastorek_exact. Qed.
Print Assumptions C16_pastorek_formula.

Theorem C16_pastorek_dry_is_zero :
  forall (L : libm F64) (Rs : list F64) (A_max zeta d : F64),
  exists w, waa_pastorek_2021 L (SArray Rs) A_max zeta d = Ok w /\ List.length w = List.length Rs /\
  forall i, i < List.length Rs -> n_eqb (get n_nan Rs i) (n_ofZ 0) = true -> get n_nan w i = n_ofZ 0.
Proof. exact pastorek_masked. Qed.
Print Assumptions C16_pastorek_dry_is_zero.

(** R = ln 2 with zeta = d = 1 gives half of A_max *)
Example C16_case :
  waa_pastorek_2021 XRm (SArray [XFin 0 : XR; XFin (ln 2) : XR]) (XFin 14 : XR) (XFin 1 : XR) (XFin 1 : XR)
  = Ok [XFin 0 : XR; XFin 7 : XR].
Proof.
  assert (0 < ln 2)%R by (rewrite <- ln_1; apply ln_increasing; lra).
  transitivity (Ok (ofR (map (wet_antenna 14 1 1) [0%R; ln 2]))).
  { apply (pastorek_exact [0%R; ln 2] 14 1 1); [lra|intros r [<-|[<-|[]]]; lra]. }
  simpl map. rewrite wet_antenna_case. unfold wet_antenna. destruct (Req_EM_T 0 0); [reflexivity|lra].
Qed.

Theorem C17_waa_from_A_obs_exact :
  forall cubic (f l A_max zeta d : R) pol,
  exact_cubic cubic -> (1 <= f / 10 ^ 9 <= 100)%R -> horizontal pol \/ vertical pol ->
  (0 < l)%R -> (0 < A_max)%R -> (0 < zeta)%R -> (0 < d)%R ->
  exists (a b amax : R) (g : R -> R),
    a_b cubic [XFin (f / 10 ^ 9) : XR] (PolStr pol) "ITU_2005" = Ok ([XFin a : XR], [XFin b : XR]) /\ (0 < a)%R /\ (0 < b)%R /\
    (1000 <= amax)%R /\ g 0%R = 0%R /\
    (forall x y, (0 <= x)%R -> (x <= y)%R -> (y <= amax)%R -> (g x <= g y)%R /\ (x - g x <= y - g y)%R) /\
    (forall x, (0 <= x <= amax)%R -> (0 <= g x <= x)%R /\ (g x < A_max)%R) /\
    (forall i, i < 100 ->
       let w := wet_antenna A_max zeta d (rain_of a b l (table_rain i)) in g (table_rain i + w)%R = w) /\
    (forall A_obs : list XR,
      let run := waa_pastorek_2021_from_A_obs XRm cubic A_obs (XFin f : XR) pol (XFin l : XR) (XFin A_max : XR) (XFin zeta : XR) (XFin d : XR) in
      ((exists x, In x A_obs /\ n_ltb x (XFin 0 : XR) = true) -> run = Err ValueError) /\
      ((exists x, In x A_obs /\ n_ltb (XFin amax : XR) x = true) -> run = Err ValueError) /\
      ((forall x, In x A_obs -> n_ltb x (XFin 0 : XR) = false /\ n_ltb (XFin amax : XR) x = false) ->
         run = Ok (map (on_number g) A_obs))).
Proof. exact from_A_obs_exact. Qed.
Print Assumptions C17_waa_from_A_obs_exact.

Theorem C17_negative_observation_raises :
  forall (L : libm F64) cubic (A_obs : list F64) f pol l A_max zeta d,
  (exists x, In x A_obs /\ n_ltb x (n_ofZ 0) = true) ->
  waa_pastorek_2021_from_A_obs L cubic A_obs f pol l A_max zeta d = Err ValueError.
Proof. exact pastorek_negative. Qed.
Print Assumptions C17_negative_observation_raises.

(** a 20 GHz link of 10 km: 0 and NaN stay, a value above any table entry and a
    negative one are rejected *)
Example C17_case :
  let run A := waa_pastorek_2021_from_A_obs XRm exact_spline A (XFin (20 * 10 ^ 9) : XR) "H" (XFin 10 : XR) (XFin 14 : XR) (XFin 0.55 : XR) (XFin 0.1 : XR) in
  run [XFin 0 : XR; XNaN : XR] = Ok [XFin 0 : XR; XNaN : XR] /\
  run [XPInf : XR] = Err ValueError /\ run [XFin 3 : XR; XFin (-1) : XR] = Err ValueError.
Proof.
  destruct (from_A_obs_exact exact_spline (20 * 10 ^ 9) 10 14 0.55 0.1 "H" exact_spline_ok)
    as (a & b & amax & g & _ & _ & _ & HA & g0 & _ & _ & _ & H); try lra.
  { left. right. left. reflexivity. }
  cbv zeta in *. split; [|split].
  - destruct (H [XFin 0 : XR; XNaN : XR]) as (_ & _ & E). rewrite E.
    + simpl. rewrite g0. reflexivity.
    + intros x [<-|[<-|[]]]; simpl; auto. split; apply Raux.Rlt_bool_false; lra.
  - destruct (H [XPInf : XR]) as (_ & E & _). apply E. exists (XPInf : XR). simpl. auto.
  - destruct (H [XFin 3 : XR; XFin (-1) : XR]) as (E & _). apply E. exists (XFin (-1) : XR).
    split; [simpl; auto|]. apply Raux.Rlt_bool_true. lra.
Qed.

Theorem C83_pastorek_scalar_rain_raises :
  forall (L : libm F64) (r A_max zeta d : F64), waa_pastorek_2021 L (SScalar r) A_max zeta d = Err TypeError.
Proof. exact pastorek_scalar. Qed.
Print Assumptions C83_pastorek_scalar_rain_raises.

Example C83_case : waa_pastorek_2021 F64demo (SScalar #0) #14 #1 #1 = Err TypeError /\
  match waa_pastorek_2021 F64demo (SArray [#0]) #14 #1 #1 with Ok w => f_same_list w [#0] | Err _ => false end = true.
Proof. split; vm_compute; reflexivity. Qed.
