(** * Vocabulary for kriging with the nearest stations only *)
From Coq Require Import List ZArith Bool Reals.
From Verif Require Import Base Num RealSpec RealStat SpecGram_proofs5 Idw_spec Kriging_model OrdKrige_model LinAlg OrdKrige_spec KrigeWin_model.
Import ListNotations.
Local Open Scope R_scope.

(** solving a linear system in exact arithmetic: the solution, or an error for
    a matrix that maps some vector other than 0 to 0 *)
Definition exact_solve (solve : list (list XR) -> list XR -> res (list XR)) : Prop :=
  forall N A b, square N A -> List.length b = N ->
  (exists w, List.length w = N /\ solve (map ofR A) (ofR b) = Ok (ofR w) /\ (forall i, (i < N)%nat -> mv N (mget A) (rget w) i = rget b i) /\
     ~ exists v, kernel N (mget A) v) \/
  (solve (map ofR A) (ofR b) = Err OtherError /\ exists v, kernel N (mget A) v).

(** as [kriged], for [OrdinaryKrigingInterpolator(n_closest_points=k)] *)
Definition kriged_near (vg : XR -> XR) solve query (k : nat) (x y z : list R) (rows cols : nat) (gx gy : list (list R)) (zi sg : list R) : Prop :=
  exists s G, krige_call (pykrige_window vg solve query k) (new_kriging true) (ofR x) (ofR y) (ofR z) rows cols
                (FloatGrid (map ofR gx)) (FloatGrid (map ofR gy)) = (s, Ok G) /\
    rectangular rows cols G /\ concat G = ofR zi /\ k_sigma s = Some (ofR sg).
Definition near_raises (vg : XR -> XR) solve query (k : nat) (x y z : list R) (rows cols : nat) (gx gy : list (list R)) (e : exn) : Prop :=
  snd (krige_call (pykrige_window vg solve query k) (new_kriging true) (ofR x) (ofR y) (ofR z) rows cols
         (FloatGrid (map ofR gx)) (FloatGrid (map ofR gy))) = Err e.

(** the [k] stations [used] are nearest to the place [(p, q)] *)
Definition nearest_stations (x y : list R) (k : nat) (p q : R) (used : list nat) : Prop :=
  List.length used = k /\ NoDup used /\ (forall i, In i used -> (i < List.length x)%nat) /\
  forall i j, In i used -> (j < List.length x)%nat -> ~ In j used -> rdist p q (rget x i) (rget y i) <= rdist p q (rget x j) (rget y j).
(** the values of these stations *)
Definition only (used : list nat) (x : list R) : list R := map (rget x) used.
