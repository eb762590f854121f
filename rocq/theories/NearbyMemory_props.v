(** * Property C148: the nearby-link chain forgets where the record starts *)
From Coq Require Import List ZArith Bool String Lia.
From Verif Require Import Base Num NumF64 NumList Libm Libm64 KR_model KR_spec NearbyRain_spec NearbyWetdry_model NearbyWetdry_spec NearbyWetdry_props
  NearbyChain_model NearbyChain_spec NearbyChain_proofs NearbyChain_props NearbyMemory_spec NearbyMemory_proofs.
Import ListNotations.
Local Open Scope nat_scope.
Local Notation length := List.length.

(** A record without its first [s] steps gives, bit by bit, the wet flags of the
    whole record from step [timeperiod * 60 / interval] on and its F scores
    from [timeperiod * 4 - 2] steps later. *)
Theorem C148_wet_flags_and_scores : forall p nw s T T' (pmin pmax pmin' pmax' : list (list F64)) wet F wet' F',
  record_ok p nw T pmin pmax -> record_ok p nw T' pmin' pmax' -> late_start s T T' pmin pmin' ->
  nearby_wetdry T pmin (nw_len nw) (nw_dist nw) (np_radius p) (np_thr_P p) (np_thr_PL p) (np_min_links p) (np_interval p) (np_timeperiod p) (np_min_hours p) = Ok (wet, F) ->
  nearby_wetdry T' pmin' (nw_len nw) (nw_dist nw) (np_radius p) (np_thr_P p) (np_thr_PL p) (np_min_links p) (np_interval p) (np_timeperiod p) (np_min_hours p) = Ok (wet', F') ->
  forall i t, i < length pmin -> t < T' ->
    (warm_wet p <= t -> cell wet i (t + s) = cell wet' i t) /\ (warm_score p <= t -> cell F i (t + s) = cell F' i t).
Proof. exact (memory_wetdry F64sem). Qed.
Print Assumptions C148_wet_flags_and_scores.

(** The same for the rain rates, once the reference level is also covered. *)
Theorem C148_rain_rates : forall (L : libm F64) cubic p nw s T T' (pmin pmax pmin' pmax' : list (list F64)) R R',
  record_ok p nw T pmin pmax -> record_ok p nw T' pmin' pmax' -> late_start s T T' pmin pmin' -> late_start s T T' pmax pmax' ->
  nearby_chain L cubic p nw T pmin pmax = Ok R -> nearby_chain L cubic p nw T' pmin' pmax' = Ok R' ->
  forall i t, i < length pmin -> t < T' -> warm_rain p <= t -> cell R i (t + s) = cell R' i t.
Proof. exact (memory_rain F64sem). Qed.
Print Assumptions C148_rain_rates.

(** Any piece of a record can be processed on its own: the rain rates of two
    records that share a stretch of [e] steps are the same within it, apart from
    the first [warm_rain] and the last two steps. *)
Theorem C148_pieces : forall (L : libm F64) cubic p nw s e T T' (pmin pmax pmin' pmax' : list (list F64)) R R',
  record_ok p nw T pmin pmax -> record_ok p nw T' pmin' pmax' -> e <= T' -> e + s <= T ->
  same_stretch s e pmin pmin' -> same_stretch s e pmax pmax' ->
  nearby_chain L cubic p nw T pmin pmax = Ok R -> nearby_chain L cubic p nw T' pmin' pmax' = Ok R' ->
  forall i t, i < length pmin -> warm_rain p <= t -> t + 2 < e -> cell R i (t + s) = cell R' i t.
Proof. exact (memory_piece F64sem). Qed.
Print Assumptions C148_pieces.

(** defaults of the notebook: 15 minutes, 24 hours, 96 dry steps; two days *)
Example C148_case_defaults (r a b w al : F64) th : let p := mk_nearby_par r a b 3 15 24 6 96 1 w al th in
  warm_wet p = 96 /\ warm_score p = 190 /\ warm_rain p = 191.
Proof. vm_compute. auto. Qed.

Example C148_case_steps : warm_wet (demo_par 2) = 2 /\ warm_score (demo_par 2) = 8 /\ warm_rain (demo_par 2) = 8.
Proof. vm_compute. auto. Qed.

(** One step before, the results can differ.  The wet flag of step
    [warm_wet - 1]: rain in the step before it is only seen if a still earlier
    step is there to compare with. *)
Definition all_drop : list (list F64) := map (fun x => #(-50) :: repeat x 11) [#(-62); #(-57); #(-54)].
Definition one_falls : list (list F64) := (#(-50) :: repeat #(-250) 11) :: repeat (repeat #(-50) 12) 2.

Lemma demo_late l : l = all_drop \/ l = one_falls ->
  record_ok (demo_par 2) demo_net 12 l l /\ record_ok (demo_par 2) demo_net 11 (map (@tl F64) l) (map (@tl F64) l) /\ late_start 1 12 11 l (map (@tl F64) l).
Proof.
  intros [-> | ->]; (split; [|split]).
  1, 2, 4, 5: apply demo_ok; [lia|reflexivity|]; intros [|[|[|i]]] Hi; try reflexivity; lia.
  all: split; [reflexivity|]; split; [reflexivity|]; intros i t Hi Ht; rewrite Nat.add_1_r; change (i < 3) in Hi; destruct i as [|[|[|i]]]; [reflexivity..|lia].
Qed.

Definition demo_wet (T : nat) (l : list (list F64)) :=
  nearby_wetdry T l (nw_len demo_net) (nw_dist demo_net) (np_radius (demo_par 2)) (np_thr_P (demo_par 2)) (np_thr_PL (demo_par 2)) 2 60 2 1.

Theorem C148_wet_step_before_refuted : exists pmin pmin' wet F wet' F',
  record_ok (demo_par 2) demo_net 12 pmin pmin /\ record_ok (demo_par 2) demo_net 11 pmin' pmin' /\ late_start 1 12 11 pmin pmin' /\
  demo_wet 12 pmin = Ok (wet, F) /\ demo_wet 11 pmin' = Ok (wet', F') /\ warm_wet (demo_par 2) = 2 /\
  n_eqb (cell wet 0 (1 + 1)) (n_ofZ 1) = true /\ n_eqb (cell wet' 0 1) (n_ofZ 0) = true.
Proof.
  destruct (demo_late all_drop (or_introl eq_refl)) as (H1 & H2 & H3).
  destruct (ok_check (demo_wet 12 all_drop) (fun R => n_eqb (cell (fst R) 0 (1 + 1)) (n_ofZ 1))) as ([wet F] & E & C); [vm_compute; reflexivity|].
  destruct (ok_check (demo_wet 11 (map (@tl F64) all_drop)) (fun R => n_eqb (cell (fst R) 0 1) (n_ofZ 0))) as ([wet' F'] & E' & C'); [vm_compute; reflexivity|].
  exists all_drop, (map (@tl F64) all_drop), wet, F, wet', F'.
  exact (conj H1 (conj H2 (conj H3 (conj E (conj E' (conj eq_refl (conj C C'))))))).
Qed.
Print Assumptions C148_wet_step_before_refuted.

(** The rain rate of step [warm_rain - 1]: a link that fell by 200 dB at the
    start counts as an outlier in the whole record only. *)
Theorem C148_rain_step_before_refuted : exists pmin pmin' R R',
  record_ok (demo_par 2) demo_net 12 pmin pmin /\ record_ok (demo_par 2) demo_net 11 pmin' pmin' /\ late_start 1 12 11 pmin pmin' /\
  demo_chain 12 pmin = Ok R /\ demo_chain 11 pmin' = Ok R' /\ warm_rain (demo_par 2) = 8 /\
  n_isnan (cell R 0 (7 + 1)) = true /\ n_eqb (cell R' 0 7) (n_ofZ 0) = true.
Proof.
  destruct (demo_late one_falls (or_intror eq_refl)) as (H1 & H2 & H3).
  destruct (ok_check (demo_chain 12 one_falls) (fun R => n_isnan (cell R 0 (7 + 1)))) as (R & E & C); [vm_compute; reflexivity|].
  destruct (ok_check (demo_chain 11 (map (@tl F64) one_falls)) (fun R => n_eqb (cell R 0 7) (n_ofZ 0))) as (R' & E' & C'); [vm_compute; reflexivity|].
  exists one_falls, (map (@tl F64) one_falls), R, R'.
  exact (conj H1 (conj H2 (conj H3 (conj E (conj E' (conj eq_refl (conj C C'))))))).
Qed.
Print Assumptions C148_rain_step_before_refuted.

(** one step later both are 0 *)
Example C148_case :
  match demo_chain 12 one_falls, demo_chain 11 (map (@tl F64) one_falls) with
  | Ok R, Ok R' => f_same_list (get [] R 0) (fNaN :: repeat #0 6 ++ [fNaN; fNaN; #0; #0; #0])
      && f_same_list (get [] R' 0) (fNaN :: repeat #0 10)
  | _, _ => false end = true.
Proof. vm_compute. reflexivity. Qed.
