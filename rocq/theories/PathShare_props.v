(** * Property C135: radar rainfall along the path of a link *)
From Coq Require Import List ZArith Bool Reals Lra Lia.
From Verif Require Import Base Num RealSpec SpecGram_proofs5 LinAlg PosDef Validator_model Validator_spec PathShare_spec PathShare_proofs PathShare_proofs2 PathShare_proofs3.
Import ListNotations.
Local Open Scope R_scope.

Theorem C135_weights_exist : forall ex ey xa ya xb yb, exists w, path_weights ex ey xa ya xb yb w.
Proof. exact weights_exist. Qed.
Print Assumptions C135_weights_exist.

(** A path with both ends in the grid lies in it. *)
Theorem C135_ends_inside_exact : forall ex ey xa ya xb yb,
  rget ex 0 <= xa <= rget ex (pixels ex) -> rget ex 0 <= xb <= rget ex (pixels ex) -> rget ey 0 <= ya <= rget ey (pixels ey) -> rget ey 0 <= yb <= rget ey (pixels ey) ->
  share (in_grid ex ey xa ya xb yb) 1.
Proof. exact ends_inside. Qed.
Print Assumptions C135_ends_inside_exact.

(** Each image contributes the sum of amounts times shares over the whole grid. *)
Theorem C135_weighted_sum_exact : forall ex ey xa ya xb yb w times values field s c,
  ascending_edges ex -> ascending_edges ey -> path_weights ex ey xa ya xb yb w -> images ey ex times values field ->
  ~ on_inner_edge ex xa xb -> ~ on_inner_edge ey ya yb -> share (in_grid ex ey xa ya xb yb) s -> 0 < s ->
  (forall i j, (i < pixels ey)%nat -> (j < pixels ex)%nat -> share (in_pixel ex ey xa ya xb yb i j) (c i j)) ->
  tot (fun i => tot (fun j => c i j) (pixels ex)) (pixels ey) = s /\
  reports w times values (fun k => tot (fun i => tot (fun j => match field k i j with Some v => v * c i j | None => 0 end) (pixels ex)) (pixels ey)).
Proof. exact weighted_sum. Qed.
Print Assumptions C135_weighted_sum_exact.

(** three columns and two rows of pixels; a link of 2.5 length units in the first row *)
Definition C135_ex : list R := [0; 1; 2; 4].
Definition C135_ey : list R := [0; 1; 3].
Definition C135_image (a b c d e f : R) : list (list (list XR)) := [[[XFin a; XFin b; XFin c]; [XFin d; XFin e; XFin f]]].
Definition C135_field (a b c d e f : R) (k i j : nat) : option R :=
  Some (match i, j with 0, 0 => a | 0, 1 => b | 0, _ => c | _, 0 => d | _, 1 => e | _, _ => f end)%nat.
Lemma C135_ascending : ascending_edges C135_ex /\ ascending_edges C135_ey.
Proof.
  split; (split; [cbn; lia|]); [intros [|[|[|i]]] Hi|intros [|[|i]] Hi]; cbn in Hi; try lia; unfold C135_ex, C135_ey, rget, get; cbn; lra.
Qed.
Lemma C135_images a b c d e f : images C135_ey C135_ex [300%Z] (C135_image a b c d e f) (C135_field a b c d e f).
Proof.
  split; [reflexivity|]. intros [|k] Hk; [|cbn in Hk; lia]. split; [split; [reflexivity|]; intros [|[|i]] Hi; cbn in *; try reflexivity; lia|].
  intros [|[|i]] [|[|[|j]]] Hi Hj; cbn in *; try reflexivity; lia.
Qed.
Example C135_case : forall w, path_weights C135_ex C135_ey (1 / 2) (1 / 2) 3 (1 / 2) w -> reports w [300%Z] (C135_image 10 20 30 7 7 7) (fun _ => 22).
Proof.
  intros w PW. destruct C135_ascending as [AX AY].
  assert (NX : ~ on_inner_edge C135_ex (1 / 2) 3) by (intros [X _]; lra).
  assert (NY : ~ on_inner_edge C135_ey (1 / 2) (1 / 2)) by (intros [_ ([|[|j]] & Hj & X)]; cbn in Hj; try lia; unfold C135_ey, rget, get in X; cbn in X; lra).
  assert (G : share (in_grid C135_ex C135_ey (1 / 2) (1 / 2) 3 (1 / 2)) 1) by (apply C135_ends_inside_exact; unfold C135_ex, C135_ey, rget, get; cbn; lra).
  destruct (C135_weighted_sum_exact C135_ex C135_ey (1 / 2) (1 / 2) 3 (1 / 2) w _ _ _ 1 (fun i j => match i, j with O, O => 1 / 5 | O, Datatypes.S O => 2 / 5 | O, Datatypes.S (Datatypes.S O) => 2 / 5 | _, _ => 0 end)
    AX AY PW (C135_images 10 20 30 7 7 7) NX NY G Rlt_0_1) as [_ H].
  - intros [|[|i]] [|[|[|j]]] Hi Hj; cbn in Hi, Hj; try lia; unfold in_pixel, along, C135_ex, C135_ey, rget, get; cbn [nth Nat.add].
    + left. exists 0, (1 / 5). repeat split; try lra.
    + left. exists (1 / 5), (3 / 5). repeat split; try lra.
    + left. exists (3 / 5), 1. repeat split; try lra.
    + right. split; [reflexivity|]. intros; lra.
    + right. split; [reflexivity|]. intros; lra.
    + right. split; [reflexivity|]. intros; lra.
  - eapply reports_ext; [|exact H]. intros k. cbv beta. cbn. lra.
Qed.

(** Uniform rain [c]: reported is [c] times the share of the path inside of the grid,
    so [c] for a link in the grid and less for one that leaves it. *)
Theorem C135_uniform_rain_exact : forall ex ey xa ya xb yb w times values field s c,
  ascending_edges ex -> ascending_edges ey -> path_weights ex ey xa ya xb yb w -> images ey ex times values field ->
  ~ on_inner_edge ex xa xb -> ~ on_inner_edge ey ya yb -> share (in_grid ex ey xa ya xb yb) s -> 0 < s ->
  (forall k i j, field k i j = Some (c k)) -> reports w times values (fun k => c k * s).
Proof. exact uniform_rain. Qed.
Print Assumptions C135_uniform_rain_exact.

(** half of the path from -1 to 1 lies in the grid: half of the rain *)
Example C135_case_leaving : forall w, path_weights C135_ex C135_ey (-1) (1 / 2) 1 (1 / 2) w -> reports w [300%Z] (C135_image 6 6 6 6 6 6) (fun _ => 3).
Proof.
  intros w PW. destruct C135_ascending as [AX AY]. apply (reports_ext _ _ _ (fun _ => 6 * (1 / 2))); [intros; lra|].
  apply (C135_uniform_rain_exact C135_ex C135_ey (-1) (1 / 2) 1 (1 / 2) w _ _ _ (1 / 2) (fun _ => 6) AX AY PW (C135_images 6 6 6 6 6 6)).
  - intros [X _]; lra.
  - intros [_ ([|[|j]] & Hj & X)]; cbn in Hj; try lia; unfold C135_ey, rget, get in X; cbn in X; lra.
  - left. exists (1 / 2), 1. split; [lra|]. split; [lra|]. split; [lra|]. intros t Ht. unfold in_grid, along, C135_ex, C135_ey, rget, get, pixels; cbn [nth Nat.sub List.length]. split; lra.
  - lra.
  - intros k [|[|i]] [|[|j]]; reflexivity.
Qed.

(** Inside of the grid the reported value lies between the smallest and the largest
    amount on the path. *)
Theorem C135_between_exact : forall ex ey xa ya xb yb w times values field,
  ascending_edges ex -> ascending_edges ey -> path_weights ex ey xa ya xb yb w -> images ey ex times values field ->
  ~ on_inner_edge ex xa xb -> ~ on_inner_edge ey ya yb -> share (in_grid ex ey xa ya xb yb) 1 ->
  exists v, reports w times values v /\
  forall k lo hi, (forall i j, (exists t, 0 <= t <= 1 /\ in_pixel ex ey xa ya xb yb i j t) -> exists r, field k i j = Some r /\ lo <= r <= hi) -> lo <= v k <= hi.
Proof. exact between_values. Qed.
Print Assumptions C135_between_exact.

(** A missing pixel counts as no rain. *)
Theorem C135_missing_pixel_is_zero_exact : forall ex ey xa ya xb yb w times values field s c m i0 j0,
  ascending_edges ex -> ascending_edges ey -> path_weights ex ey xa ya xb yb w -> images ey ex times values field ->
  ~ on_inner_edge ex xa xb -> ~ on_inner_edge ey ya yb -> share (in_grid ex ey xa ya xb yb) s -> 0 < s ->
  (i0 < pixels ey)%nat -> (j0 < pixels ex)%nat -> share (in_pixel ex ey xa ya xb yb i0 j0) m ->
  (forall k i j, field k i j = if Nat.eqb i i0 && Nat.eqb j j0 then None else Some (c k)) -> reports w times values (fun k => c k * (s - m)).
Proof. exact missing_pixel. Qed.
Print Assumptions C135_missing_pixel_is_zero_exact.

(** A path along the edge between two columns belongs to both: twice the rain. *)
Theorem C135_along_edge_refuted : forall ex ey x ya yb j w times values field c,
  ascending_edges ex -> ascending_edges ey -> path_weights ex ey x ya x yb w -> images ey ex times values field ->
  (0 < j < pixels ex)%nat -> rget ex j = x -> ~ on_inner_edge ey ya yb -> rget ey 0 <= ya <= rget ey (pixels ey) -> rget ey 0 <= yb <= rget ey (pixels ey) ->
  (forall k i j, field k i j = Some (c k)) -> reports w times values (fun k => 2 * c k).
Proof. exact along_edge. Qed.
Print Assumptions C135_along_edge_refuted.

Example C135_case_edge : forall w, path_weights C135_ex C135_ey 1 (1 / 2) 1 (5 / 2) w -> reports w [300%Z] (C135_image 6 6 6 6 6 6) (fun _ => 12).
Proof.
  intros w PW. destruct C135_ascending as [AX AY]. apply (reports_ext _ _ _ (fun _ => 2 * 6)); [intros; lra|].
  apply (C135_along_edge_refuted C135_ex C135_ey 1 (1 / 2) (5 / 2) 1 w _ _ _ (fun _ => 6) AX AY PW (C135_images 6 6 6 6 6 6)); unfold C135_ex, C135_ey, rget, get, pixels; cbn [nth Nat.sub List.length]; try lra; try lia.
  - intros [X _]; lra.
  - intros k [|[|i]] [|[|j]]; reflexivity.
Qed.

(** No part of the path in the grid: the call raises. *)
Theorem C135_outside_raises_exact : forall ex ey xa ya xb yb w times values,
  ascending_edges ex -> ascending_edges ey -> path_weights ex ey xa ya xb yb w -> share (in_grid ex ey xa ya xb yb) 0 -> reports_nothing w times values.
Proof. exact outside_raises. Qed.
Print Assumptions C135_outside_raises_exact.

(** The direction of the link does not matter. *)
Theorem C135_direction_exact : forall ex ey xa ya xb yb w, path_weights ex ey xa ya xb yb w <-> path_weights ex ey xb yb xa ya w.
Proof. intros. split; apply reversed_weights. Qed.
Print Assumptions C135_direction_exact.
