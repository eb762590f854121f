(** * Property C144: the exponent of inverse distance weighting *)
From Coq Require Import List ZArith Bool Reals Lra Lia.
From Verif Require Import Base Num NumF64 NumList NpOps Libm Libm64 RealSpec RealStat Idw_model Idw_spec Idw_proofs IdwPower_proofs.
Import ListNotations.
Local Open Scope nat_scope.
Local Notation call query t qs z k p ub := (snd (tree_call XRm query t (map ofP qs) (ofR z) k zero (XFin p : XR) (ofU ub))).
Local Notation pt j qs := (get (0%R, 0%R) qs j).

(** With exponent 0 the value is the plain mean of the used stations. *)
Theorem C144_power_zero_exact : forall query (X qs : list rpt) k ub t, query_ok query -> new_tree (map ofP X) = Ok t -> qs <> [] -> 2 <= k ->
  forall j, j < length qs -> (forall i, i < length X -> (1 / 10000000000 <= dist_to X (pt j qs) i)%R) ->
  exists used, is_nearest (dist_to X (pt j qs)) (length X) k ub used /\
  forall z v, length z = length X -> call query t qs z k 0%R ub = Ok v ->
  (used = [] -> get (n_nan : XR) v j = (XNaN : XR)) /\
  (used <> [] -> get (n_nan : XR) v j = (XFin (rmean (map (rget z) used)) : XR)).
Proof. exact power_zero. Qed.
Print Assumptions C144_power_zero_exact.

(** A change of the value of station [i] changes the interpolated value by at most
    that change times (distance to any station m in range / distance to i) to the
    power p; in particular a station twice as far as the nearest one has at most the
    share 1/4 for p = 2. *)
Theorem C144_influence_exact : forall query (X qs : list rpt) k ub t, query_ok query -> new_tree (map ofP X) = Ok t -> qs <> [] -> 2 <= k ->
  forall j, j < length qs -> (forall i, i < length X -> (1 / 10000000000 <= dist_to X (pt j qs) i)%R) ->
  forall i m (p : R) z z' v v', i < length X -> m < length X -> in_range (dist_to X (pt j qs)) ub m -> (0 <= p)%R ->
  length z = length X -> length z' = length X -> (forall h, h < length X -> h <> i -> rget z' h = rget z h) ->
  call query t qs z k p ub = Ok v -> call query t qs z' k p ub = Ok v' ->
  exists r r', get (n_nan : XR) v j = (XFin r : XR) /\ get (n_nan : XR) v' j = (XFin r' : XR) /\
  (Rabs (r' - r) <= Rabs (rget z' i - rget z i) * Rpower (dist_to X (pt j qs) m / dist_to X (pt j qs) i) p)%R.
Proof. exact station_influence. Qed.
Print Assumptions C144_influence_exact.

(** How far the value can be from the value of the nearest station, ... *)
Theorem C144_nearest_bound_exact : forall query (X qs : list rpt) k ub t, query_ok query -> new_tree (map ofP X) = Ok t -> qs <> [] -> 2 <= k ->
  forall j i0 (d1 : R), j < length qs -> i0 < length X -> in_range (dist_to X (pt j qs)) ub i0 ->
  (1 / 10000000000 <= dist_to X (pt j qs) i0 < d1)%R -> (forall i, i < length X -> i <> i0 -> (d1 <= dist_to X (pt j qs) i)%R) ->
  forall (p D : R) z v, (0 <= p)%R -> length z = length X -> (forall i, i < length X -> (Rabs (rget z i - rget z i0) <= D)%R) ->
  call query t qs z k p ub = Ok v ->
  exists r, get (n_nan : XR) v j = (XFin r : XR) /\
  (Rabs (r - rget z i0) <= INR (k - 1) * Rpower (dist_to X (pt j qs) i0 / d1) p * D)%R.
Proof. exact nearest_bound. Qed.
Print Assumptions C144_nearest_bound_exact.

(** ... so for large exponents the map becomes the one of the nearest stations. *)
Theorem C144_nearest_limit_exact : forall query (X qs : list rpt) k ub t, query_ok query -> new_tree (map ofP X) = Ok t -> qs <> [] -> 2 <= k ->
  forall j i0, j < length qs -> i0 < length X -> in_range (dist_to X (pt j qs)) ub i0 ->
  (1 / 10000000000 <= dist_to X (pt j qs) i0)%R -> (forall i, i < length X -> i <> i0 -> (dist_to X (pt j qs) i0 < dist_to X (pt j qs) i)%R) ->
  forall z eps, length z = length X -> (0 < eps)%R -> exists P, forall p v, (P <= p)%R -> call query t qs z k p ub = Ok v ->
  exists r, get (n_nan : XR) v j = (XFin r : XR) /\ (Rabs (r - rget z i0) <= eps)%R.
Proof. exact nearest_limit. Qed.
Print Assumptions C144_nearest_limit_exact.

(** Maps are not continuous: with two neighbours and p = 2, moving the place by any
    small amount [2 s] across a line where the second neighbour changes makes the value
    jump from 0 to more than 1. *)
Theorem C144_continuous_refuted : forall query t v (s : R), query_ok query -> new_tree (map ofP [(0%R, 1%R); (-4, 0); (4, 0)]%R) = Ok t -> (0 < s < 1)%R ->
  call query t [(- s, 0); (s, 0)]%R [0; 0; 17]%R 2 2%R None = Ok v ->
  get (n_nan : XR) v 0 = (XFin 0 : XR) /\ exists r, get (n_nan : XR) v 1 = (XFin r : XR) /\ (1 <= r)%R.
Proof. exact jump. Qed.
Print Assumptions C144_continuous_refuted.

(** two stations at distances 1 and 3 with values 0 and 40: 20 for p = 0, 10 for p = 1 and (up to rounding) 4 for p = 2 *)
Definition C144_idw (p : F64) : list F64 :=
  match new_tree [(#0, #0); (#4, #0)] with
  | Ok t => match snd (tree_call F64demo brute_query t [(#1, #0)] [#0; #40] 2 zero p None) with Ok v => v | Err _ => [] end
  | Err _ => [] end.
Example C144_case : f_same_list (C144_idw #0) [#20] = true /\ f_same_list (C144_idw #1) [#10] = true /\
  forallb (fun x => n_ltb (n_abs (n_sub x #4)) (n_lit 1 14)) (C144_idw #2) && (List.length (C144_idw #2) =? 1) = true.
Proof. repeat split; vm_compute; reflexivity. Qed.
