(** C131: over the whole band of accepted frequencies the interpolated ITU coefficients stay inside fixed bounds,
    and above 5 GHz the coefficient [a] rises and above 6 (8) GHz the exponent [b] falls with frequency. *)
From Coq Require Import List ZArith Bool String Reals Lra Lia.
From Verif Require Import Base Num NumF64 RealSpec Libm Itu_table KR_model KR_spec Spline_spec KR_proofs3 KRMono_proofs.
Import ListNotations.
Local Open Scope nat_scope.

Theorem C131_coefficients_bounded_and_ordered :
  forall (cubic : list XR -> list XR -> XR -> XR), exact_cubic cubic ->
  forall (f : list R) pol ap,
  List.length f = List.length (pols (ofR f) pol) -> f <> [] ->
  (forall x, In x f -> (1 <= x <= 100)%R) ->
  (forall p, In p (pols (ofR f) pol) -> horizontal p \/ vertical p) ->
  known_table ap <> None ->
  exists a b : list R, a_b cubic (ofR f) pol ap = Ok (ofR a, ofR b) /\
    List.length a = List.length f /\ List.length b = List.length f /\
    (forall i, i < List.length f -> (1 / 50000 < rget a i < 137 / 100)%R /\ (67 / 100 < rget b i < 171 / 100)%R) /\
    (forall i j, i < List.length f -> j < List.length f ->
       let p := get ""%string (pols (ofR f) pol) i in let q := get ""%string (pols (ofR f) pol) j in
       horizontal p /\ horizontal q \/ vertical p /\ vertical q ->
       (rget f i < rget f j)%R ->
       ((5 <= rget f i)%R -> (rget a i < rget a j)%R) /\
       ((ap = "ITU_2005"%string -> (6 <= rget f i)%R) -> (ap = "ITU_2003"%string -> (8 <= rget f i)%R) ->
        (rget b j < rget b i)%R)).
Proof. exact a_b_order. Qed.
Print Assumptions C131_coefficients_bounded_and_ordered.

(** below these frequencies the order fails (2005 table): [a] at 3 GHz exceeds [a] at 4 GHz, [b] at 1 GHz is below [b] at 2 GHz *)
Theorem C131_order_at_low_frequencies_refuted :
  forall (cubic : list XR -> list XR -> XR -> XR), exact_cubic cubic ->
  exists a b : list R,
    a_b cubic (ofR [3; 4; 1; 2]%R) (PolStr "H") "ITU_2005" = Ok (ofR a, ofR b) /\
    (rget a 1 < rget a 0)%R /\ (rget b 2 < rget b 3)%R.
Proof.
  intros cubic Hc.
  destruct (a_b_exact cubic Hc [3; 4; 1; 2]%R (PolStr "H") "ITU_2005" ITU_table_2005) as (a & b & E & La & Lb & G); auto.
  - discriminate.
  - intros x Hx. simpl in Hx. repeat (destruct Hx as [<-|Hx]; [lra|]). destruct Hx.
  - intros s Hs. simpl in Hs. left. unfold horizontal. simpl. tauto.
  - exists a, b. split; [exact E|].
    assert (V : forall i j, i < 4 -> j < List.length (get [] ITU_table_2005 0) -> rget [3; 4; 1; 2]%R i = entry ITU_table_2005 0 j ->
      rget a i = entry ITU_table_2005 1 j /\ rget b i = entry ITU_table_2005 3 j).
    { intros i j Hi Hj Ef. destruct (G i Hi) as (_ & _ & H). apply (proj1 (H j Hj Ef)).
      unfold horizontal. destruct i as [|[|[|[|]]]]; simpl; auto; lia. }
    destruct (V 0 4 ltac:(lia) ltac:(vm_compute; lia)) as [-> _]; [unfold entry, dec, rget, get; simpl; lra|].
    destruct (V 1 6 ltac:(lia) ltac:(vm_compute; lia)) as [-> _]; [unfold entry, dec, rget, get; simpl; lra|].
    destruct (V 2 0 ltac:(lia) ltac:(vm_compute; lia)) as [_ ->]; [unfold entry, dec, rget, get; simpl; lra|].
    destruct (V 3 2 ltac:(lia) ltac:(vm_compute; lia)) as [_ ->]; [unfold entry, dec, rget, get; simpl; lra|].
    unfold entry, dec, get. simpl. lra.
Qed.
Print Assumptions C131_order_at_low_frequencies_refuted.

(** The same attenuation on the same path, read at a lower and at a higher frequency:
    where the higher one gives at most 1 mm/h, the lower one gives at least as much. *)
Theorem C131_light_rain_exact :
  forall (cubic : list XR -> list XR -> XR -> XR), exact_cubic cubic ->
  forall (A : list R) (l f g : R) pol ap (R_min : R),
  (0 < l)%R -> (6 <= f)%R -> (ap = "ITU_2003"%string -> (8 <= f)%R) -> (f < g)%R -> (g <= 100)%R ->
  horizontal pol \/ vertical pol -> known_table ap <> None ->
  exists rf rg : list R,
    calc_R_from_A XRm cubic (ofR A) (XFin l : XR) (Some [XFin f : XR]) (Some (PolStr pol)) None None ap (XFin R_min : XR) = Ok (ofR rf) /\
    calc_R_from_A XRm cubic (ofR A) (XFin l : XR) (Some [XFin g : XR]) (Some (PolStr pol)) None None ap (XFin R_min : XR) = Ok (ofR rg) /\
    List.length rf = List.length A /\ List.length rg = List.length A /\
    forall i, i < List.length A ->
      (0 <= rget rf i)%R /\ (0 <= rget rg i)%R /\ ((rget rg i <= 1)%R -> (rget rg i <= rget rf i)%R).
Proof. exact calc_light. Qed.
Print Assumptions C131_light_rain_exact.

(** 17.3 and 23.8 GHz, between nodes *)
Example C131_case :
  exists a b : list R,
    a_b exact_spline (ofR [23.8; 17.3]%R) (PolStr "v") "ITU_2003" = Ok (ofR a, ofR b) /\
    (rget a 1 < rget a 0 < 137 / 100)%R /\ (67 / 100 < rget b 0 < rget b 1)%R.
Proof.
  destruct (C131_coefficients_bounded_and_ordered exact_spline exact_spline_ok [23.8; 17.3]%R (PolStr "v") "ITU_2003")
    as (a & b & E & La & Lb & B & M); auto.
  - discriminate.
  - intros x [<-|[<-|[]]]; lra.
  - intros s Hs. simpl in Hs. right. unfold vertical. simpl. tauto.
  - discriminate.
  - exists a, b. split; [exact E|]. pose proof (B 0 ltac:(simpl; lia)). pose proof (B 1 ltac:(simpl; lia)).
    destruct (M 1 0) as [M1 M2]; [simpl; lia|simpl; lia|right; unfold vertical; simpl; auto|unfold rget, get; simpl; lra|].
    change (rget [23.8; 17.3]%R 1) with 17.3%R in M1, M2. specialize (M1 ltac:(lra)). specialize (M2 ltac:(discriminate) ltac:(intros; lra)). lra.
Qed.

(** 0.02 dB on 2 km: read at 20 GHz (a = 0.09164, b = 1.0568) it is about 0.123 mm/h *)
Example C131_case_light :
  exists rf rg : R,
    calc_R_from_A XRm exact_spline (ofR [0.02]%R) (XFin 2 : XR) (Some [XFin 20 : XR]) (Some (PolStr "H")) None None "ITU_2005" (XFin 0 : XR) = Ok (ofR [rf]) /\
    calc_R_from_A XRm exact_spline (ofR [0.02]%R) (XFin 2 : XR) (Some [XFin 38.6 : XR]) (Some (PolStr "H")) None None "ITU_2005" (XFin 0 : XR) = Ok (ofR [rg]) /\
    (rg <= 1 -> rg <= rf)%R.
Proof.
  destruct (C131_light_rain_exact exact_spline exact_spline_ok [0.02]%R 2 20 38.6 "H" "ITU_2005" 0)
    as (rf & rg & E1 & E2 & L1 & L2 & G); try lra; try discriminate.
  - left. unfold horizontal. simpl. auto.
  - destruct rf as [|r1 [|]]; try discriminate. destruct rg as [|r2 [|]]; try discriminate.
    exists r1, r2. split; [exact E1|]. split; [exact E2|]. apply (G 0). simpl. lia.
Qed.
