(** * Property C94: wet antenna attenuation looked up from the observed attenuation *)
From Coq Require Import List ZArith Bool String Lia Reals Lra.
From Verif Require Import Base Num RealSpec KR_model KR_spec KR_proofs3 Pastorek_model Pastorek_spec Pastorek_proofs Leijnse_model Leijnse_proofs
  LeijnseObs_model LeijnseObs_spec LeijnseObs_proofs.
Import ListNotations.
Local Open Scope R_scope.
Local Notation length := List.length.

Theorem C94_leijnse_lookup : forall search, bracketing search ->
  forall cubic f l T gamma delta na la pol,
  exact_cubic cubic -> 1 <= f / 10 ^ 9 <= 100 -> horizontal pol \/ vertical pol ->
  0 < l -> 0 < T <= 339 -> 0 < fst na -> 0 <= snd na -> 0 <= la ->
  exists (a b : R),
    a_b cubic [XFin (f / 10 ^ 9) : XR] (PolStr pol) "ITU_2005" = Ok ([XFin a : XR], [XFin b : XR]) /\ 0 < a /\ 0 < b /\
    let waa i := waa_formula (rain_of a b l (table_rain i)) f T gamma delta na la in
    let obs i := table_rain i + waa i in
    obs 0%nat = 0 /\
    forall A_obs : list XR,
      let run := waa_leijnse_2008_from_A_obs search cubic A_obs f pol l T gamma delta na la in
      ((exists x, In x A_obs /\ n_ltb x (XFin 0 : XR) = true) -> run = Err ValueError) /\
      ((exists x, In x A_obs /\ n_ltb (XFin (obs 99%nat) : XR) x = true) -> run = Err ValueError) /\
      ((forall x, In x A_obs -> n_ltb x (XFin 0 : XR) = false /\ n_ltb (XFin (obs 99%nat) : XR) x = false) ->
        exists out, run = Ok out /\ length out = length A_obs /\
        forall i, (i < length A_obs)%nat ->
          match xat A_obs i with
          | XFin x => exists y, xat out i = XFin y /\ on_polygon obs waa 99 x y /\ 0 <= x - y <= 1000
          | v => xat out i = v
          end).
Proof. exact leijnse_from_A_obs. Qed.
Print Assumptions C94_leijnse_lookup.

(** the search of Pastorek_model.v is one *)
Example C94_case_search : bracketing (fun xp x => interp_index xp x (length xp - 1)).
Proof. exact interp_index_bracketing. Qed.

(** a link of 10 km at 20 GHz whose film never grows (gamma = 0): everything
    observed is rain; NaN stays, infinite and negative values are rejected *)
Example C94_case :
  let run A := waa_leijnse_2008_from_A_obs (fun xp x => interp_index xp x (length xp - 1)) exact_spline A
                 (20 * 10 ^ 9) "H" 10 293 0 0.24 (1.73, 0.014) 0.001 in
  run [XFin 5 : XR; XNaN : XR] = Ok [XFin 0 : XR; XNaN : XR] /\
  run [XPInf : XR] = Err ValueError /\ run [XFin 3 : XR; XFin (-1) : XR] = Err ValueError.
Proof.
  destruct (leijnse_from_A_obs _ interp_index_bracketing exact_spline (20 * 10 ^ 9) 10 293 0 0.24 (1.73, 0.014) 0.001 "H" exact_spline_ok)
    as (a & b & _ & _ & _ & _ & H); simpl fst; simpl snd; try lra.
  { left. right. left. reflexivity. }
  assert (Z : forall r, waa_formula r (20 * 10 ^ 9) 293 0 0.24 (1.73, 0.014) 0.001 = 0).
  { intros r. transitivity (waa_formula 0 (20 * 10 ^ 9) 293 0 0.24 (1.73, 0.014) 0.001).
    - unfold waa_formula. rewrite !Rmult_0_l. reflexivity.
    - apply formula_zero. apply den_nz; simpl; lra. }
  cbv zeta in *. destruct table_rain_props as (_ & _ & T99). split; [|split].
  - destruct (H [XFin 5 : XR; XNaN : XR]) as (_ & _ & E). clear H. destruct E as (out & E & LO & G).
    { intros x Hx. rewrite T99, Z. destruct Hx as [<-|[<-|[]]]; simpl; auto. split; apply Raux.Rlt_bool_false; lra. }
    rewrite E. destruct out as [|x [|y [|]]]; try discriminate.
    pose proof (G 0%nat ltac:(simpl; lia)) as G0. pose proof (G 1%nat ltac:(simpl; lia)) as G1. unfold xat, get in *. simpl in *.
    destruct G0 as (v & -> & (j & t & _ & _ & _ & V) & _). rewrite !Z in V. rewrite G1. repeat f_equal. lra.
  - destruct (H [XPInf : XR]) as (_ & E & _). apply E. exists (XPInf : XR). simpl. auto.
  - destruct (H [XFin 3 : XR; XFin (-1) : XR]) as (E & _). apply E. exists (XFin (-1) : XR).
    split; [simpl; auto|]. apply Raux.Rlt_bool_true. lra.
Qed.
