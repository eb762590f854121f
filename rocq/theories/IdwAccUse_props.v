(** * Properties C110 and C144 in binary64: linearity, exponent and influence up to rounding *)
From Coq Require Import List ZArith Bool Reals Lra Lia.
From Flocq Require Import Core IEEE754.BinarySingleNaN.
From Verif Require Import Base Num NumF64 NumList NpOps Libm Libm64 RealSpec RealStat Ulp64 Idw_model Idw_spec HaversineFloat_spec HaversineFloat_proofs RainFloat_spec RainFloat_proofs IdwSymFloat_spec IdwSymFloat_proofs IdwAcc_spec IdwAcc_proofs IdwAccUse_spec IdwAccUse_proofs.
From Verif Require IdwAcc_props.
Import ListNotations.
Local Open Scope R_scope.
Local Notation at_place qs j := (get ((n_nan, n_nan) : place) qs j).

(** Where the station values of a third run are a times those of a first plus b times
    those of a second, so are the maps, up to rounding; missing values are the same. *)
Theorem C110_linear_float : forall L e query X qs k p pr ub t, plain_setting L e query X qs k p pr ub t ->
  forall a b z1 z2 z3 M1 M2 M3, plain_values X z1 M1 -> plain_values X z2 M2 -> plain_values X z3 M3 ->
  (forall i, (i < length X)%nat -> B2R (nget z3 i) = a * B2R (nget z1 i) + b * B2R (nget z2 i)) ->
  exists v1 v2 v3, snd (tree_call L query t qs z1 k zero p ub) = Ok v1 /\ snd (tree_call L query t qs z2 k zero p ub) = Ok v2 /\ snd (tree_call L query t qs z3 k zero p ub) = Ok v3 /\
  forall j, (j < length qs)%nat -> (nget v1 j = n_nan /\ nget v2 j = n_nan /\ nget v3 j = n_nan) \/
  exists r1 r2 r3, is_num (nget v1 j) r1 /\ is_num (nget v2 j) r2 /\ is_num (nget v3 j) r3 /\
    Rabs (r3 - (a * r1 + b * r2)) <= Rabs a * map_rounding M1 e pr k + Rabs b * map_rounding M2 e pr k + map_rounding M3 e pr k.
Proof. exact linear_float. Qed.
Print Assumptions C110_linear_float.

(** the exponent 0 gives the mean of the used stations *)
Theorem C144_power_zero_float : forall L e query X qs k p pr ub t, plain_setting L e query X qs k p pr ub t ->
  forall j, (j < length qs)%nat -> (forall i, (i < length X)%nat -> 0 < far X (at_place qs j) i) ->
  forall z M, pr = 0 -> plain_values X z M ->
  exists used v, is_nearest (far X (at_place qs j)) (length X) k (rcut ub) used /\ snd (tree_call L query t qs z k zero p ub) = Ok v /\
  (used = [] -> nget v j = n_nan) /\
  (used <> [] -> exists r, is_num (nget v j) r /\ Rabs (r - rmean (map (fun i => B2R (nget z i)) used)) <= map_rounding M e pr k).
Proof. exact zero_float. Qed.
Print Assumptions C144_power_zero_float.

(** the influence of station [i], by its distance compared with that of any station [m] in range *)
Theorem C144_influence_float : forall L e query X qs k p pr ub t, plain_setting L e query X qs k p pr ub t ->
  forall j, (j < length qs)%nat -> (forall i, (i < length X)%nat -> 0 < far X (at_place qs j) i) ->
  forall i m z z' M, plain_values X z M -> plain_values X z' M -> (i < length X)%nat -> (m < length X)%nat -> in_range (far X (at_place qs j)) (rcut ub) m ->
  (forall h, (h < length X)%nat -> h <> i -> nget z' h = nget z h) ->
  exists v v' r r', snd (tree_call L query t qs z k zero p ub) = Ok v /\ snd (tree_call L query t qs z' k zero p ub) = Ok v' /\ is_num (nget v j) r /\ is_num (nget v' j) r' /\
  Rabs (r' - r) <= Rabs (B2R (nget z' i) - B2R (nget z i)) * Rpower (far X (at_place qs j) m / far X (at_place qs j) i) pr + 2 * map_rounding M e pr k.
Proof. exact influence_float. Qed.
Print Assumptions C144_influence_float.

(** how far the value can be from that of the nearest station *)
Theorem C144_nearest_bound_float : forall L e query X qs k p pr ub t, plain_setting L e query X qs k p pr ub t ->
  forall j, (j < length qs)%nat -> (forall i, (i < length X)%nat -> 0 < far X (at_place qs j) i) ->
  forall i0 d1 D z M, plain_values X z M -> (i0 < length X)%nat -> in_range (far X (at_place qs j)) (rcut ub) i0 -> far X (at_place qs j) i0 < d1 ->
  (forall i, (i < length X)%nat -> i <> i0 -> d1 <= far X (at_place qs j) i) -> (forall i, (i < length X)%nat -> Rabs (B2R (nget z i) - B2R (nget z i0)) <= D) ->
  exists v r, snd (tree_call L query t qs z k zero p ub) = Ok v /\ is_num (nget v j) r /\
  Rabs (r - B2R (nget z i0)) <= INR (k - 1) * Rpower (far X (at_place qs j) i0 / d1) pr * D + map_rounding M e pr k.
Proof. exact nearest_float. Qed.
Print Assumptions C144_nearest_bound_float.

(** the setting exists: the stations of C152 at distances 1, 3 and 13, two neighbours, exponents 0 to 4 *)
Lemma C144_setting z : (0 <= z <= 4)%Z -> exists t, plain_setting F64cr u64 square_search IdwAcc_props.C152_stations [(#0, #0)] 2 (n_ofZ z) (IZR z) (Some #9) t.
Proof.
  intros Hz. assert (NUM : forall z, (Z.abs z <= 2 ^ 53)%Z -> is_num (n_ofZ z) (IZR z)) by (exact num_ofZ).
  assert (NB : forall z, (Z.abs z <= 2 ^ 53)%Z -> number (n_ofZ z)) by (intros y Hy; exists (IZR y); apply NUM; auto).
  assert (V : forall z, (Z.abs z <= 2 ^ 53)%Z -> B2R (n_ofZ z : F64) = IZR z) by (intros y Hy; exact (SumFloat_proofs.f_val_B2R _ _ (num_ofZ y Hy))).
  assert (HT : exists t, new_tree IdwAcc_props.C152_stations = Ok t) by (eexists; reflexivity). destruct HT as (t & HT). exists t. constructor.
  - exact F64cr_pow_accurate.
  - pose proof u_small. lra.
  - exact square_search_ok.
  - exact HT.
  - discriminate.
  - lia.
  - simpl. lra.
  - apply NUM. lia.
  - destruct Hz as [Z1 Z2]. apply IZR_le in Z1, Z2. lra.
  - intros w E. exact (eq_ind (#9 : F64) number (NB 9%Z ltac:(lia)) w (f_equal (fun o : option F64 => match o with Some x => x | None => #9 end) E)).
  - intros q [E|[]]. rewrite <- E. split; [split; cbn [fst snd]; apply NB; lia|].
    replace (rcut (Some #9)) with (Some 9) by (unfold rcut; cbn [option_map]; rewrite V by lia; reflexivity). exact IdwAcc_props.C152_apart.
Qed.
Lemma C144_values a b c : (0 <= a <= 100)%Z -> (0 <= b <= 100)%Z -> (0 <= c <= 100)%Z -> plain_values IdwAcc_props.C152_stations [n_ofZ a; n_ofZ b; n_ofZ c] 100.
Proof.
  intros A B C. assert (K : forall z, (0 <= z <= 100)%Z -> number (n_ofZ z) /\ Rabs (B2R (n_ofZ z : F64)) <= 100).
  { intros z Hz. assert (N : is_num (n_ofZ z) (IZR z)) by (apply num_ofZ; lia). split; [exists (IZR z); exact N|]. rewrite (SumFloat_proofs.f_val_B2R _ _ N). destruct Hz as [Z1 Z2]. apply IZR_le in Z1, Z2. rewrite Rabs_pos_eq; lra. }
  constructor; [reflexivity| |assert (1 <= 2 ^ 190) by (apply pow_R1_Rle; lra); replace (2 ^ 200) with (1024 * 2 ^ 190) by (change 200%nat with (10 + 190)%nat; rewrite pow_add; simpl (2 ^ 10); lra); lra]. intros x [E|[E|[E|[]]]]; rewrite <- E; apply K; assumption.
Qed.
(** values 10 and 20 and then 10 and 29: (9*10 + 20)/10 = 11 and 11.9; a change of 9 at distance 3 counts 9/9 at most *)
Example C144_case_float : match new_tree IdwAcc_props.C152_stations with
  | Ok t => match snd (tree_call F64demo square_search t [(#0, #0)] [#10; #20; #70] 2 zero #2 (Some #9)), snd (tree_call F64demo square_search t [(#0, #0)] [#10; #29; #70] 2 zero #2 (Some #9)) with
            | Ok [v], Ok [v'] => n_ltb (n_abs (n_sub v #11)) (n_lit 1 11) && n_ltb (n_sub v' v) #1 && n_ltb (n_lit 8 1) (n_sub v' v) | _, _ => false end
  | Err _ => false end = true.
Proof. vm_compute. reflexivity. Qed.
