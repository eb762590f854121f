(** * Properties C09-C12: blackout gap detection *)
From Coq Require Import List ZArith Bool Lia.
From Verif Require Import Base Num NumF64 NumList Blackout_model Blackout_spec Blackout_proofs.
Import ListNotations.
Local Open Scope nat_scope.

Theorem C09_markers_exact :
  forall (rsl : list F64) (thr : F64) gs ge,
  get_blackout_start_and_end rsl thr = (gs, ge) ->
  length gs = length rsl /\ length ge = length rsl /\
  forall i, i < length rsl ->
    (get false gs i = true <-> is_low rsl thr i /\ is_missing rsl (cyc_next (length rsl) i)) /\
    (get false ge i = true <-> is_low rsl thr i /\ is_missing rsl (cyc_prev (length rsl) i)).
Proof. exact markers_spec. Qed.
Print Assumptions C09_markers_exact.

(** the last sample is marked as a gap start because the FIRST sample is NaN *)
Example C09_case :
  get_blackout_start_and_end (O := F64) [fNaN; #(-80); #(-50); #(-70); fNaN; #(-66); #(-70)] #(-65)
  = ([false; false; false; true; false; false; true], [false; true; false; false; false; true; false]).
Proof. vm_compute. reflexivity. Qed.

Theorem C10_mask_exact :
  forall (rsl : list F64) (thr : F64) gs ge,
  get_blackout_start_and_end rsl thr = (gs, ge) ->
  exists m, created_blackout_gap_mask rsl gs ge = Ok m /\ length m = length rsl /\
    forall i, i < length rsl ->
      (get false m i = true <->
       exists p, gap_after rsl p i /\ is_low rsl thr p /\ ~ is_missing rsl (cyc_prev (length rsl) p)).
Proof. exact (mask_markers F64sem). Qed.
Print Assumptions C10_mask_exact.

(** The plain reading "every NaN run entered from below the threshold is
    marked" is false: a single low sample between two gaps is a gap end too,
    and so is a low first sample when the last sample is NaN. *)
Theorem C10_every_low_entry_is_marked_refuted :
  exists (rsl : list F64) (thr : F64) gs ge m p i,
    get_blackout_start_and_end rsl thr = (gs, ge) /\
    created_blackout_gap_mask rsl gs ge = Ok m /\
    gap_after rsl p i /\ is_low rsl thr p /\ get false m i = false.
Proof.
  exists [#(-70); fNaN; #(-70); fNaN; #(-50)], #(-65),
    [true; false; true; false; false], [false; false; true; false; false],
    [false; true; false; false; false], 2, 3.
  split; [vm_compute; reflexivity|]. split; [vm_compute; reflexivity|].
  split; [|split; vm_compute; reflexivity].
  split; [simpl; lia|]. intros j Hj. assert (j = 3) as -> by lia. vm_compute. reflexivity.
Qed.
Print Assumptions C10_every_low_entry_is_marked_refuted.

Example C10_case :
  created_blackout_gap_mask (O := F64) [#(-50); #(-70); fNaN; fNaN; #(-50); fNaN; #(-70)]
     (fst (get_blackout_start_and_end (O := F64) [#(-50); #(-70); fNaN; fNaN; #(-50); fNaN; #(-70)] #(-65)))
     (snd (get_blackout_start_and_end (O := F64) [#(-50); #(-70); fNaN; fNaN; #(-50); fNaN; #(-70)] #(-65)))
  = Ok [false; false; true; true; false; false; false].
Proof. vm_compute. reflexivity. Qed.

(** wrap-around: the same series with a NaN appended loses its first gap *)
Example C10_case_wrap :
  created_blackout_gap_mask (O := F64) [#(-70); fNaN; #(-50); fNaN]
     (fst (get_blackout_start_and_end (O := F64) [#(-70); fNaN; #(-50); fNaN] #(-65)))
     (snd (get_blackout_start_and_end (O := F64) [#(-70); fNaN; #(-50); fNaN] #(-65)))
  = Ok [false; false; false; false].
Proof. vm_compute. reflexivity. Qed.

Theorem C11_two_sided_mask_exact :
  forall (rsl : list F64) (thr : F64),
  exists m, notebook_mask rsl thr = Ok m /\ length m = length rsl /\
    forall i, i < length rsl ->
      (get false m i = true <->
       (exists p, gap_after rsl p i /\ is_low rsl thr p /\ ~ is_missing rsl (cyc_prev (length rsl) p)) \/
       (exists q, gap_before rsl i q /\ is_low rsl thr q /\ ~ is_missing rsl (cyc_next (length rsl) q))).
Proof. exact (notebook_mask_spec F64sem). Qed.
Print Assumptions C11_two_sided_mask_exact.

(** A gap with a low sample on both sides can be missed by the combined mask. *)
Theorem C11_low_neighbour_is_marked_refuted :
  exists (rsl : list F64) (thr : F64) m p i q,
    notebook_mask rsl thr = Ok m /\
    gap_after rsl p i /\ is_low rsl thr p /\ gap_before rsl i q /\ is_low rsl thr q /\
    get false m i = false.
Proof.
  exists [#(-50); fNaN; #(-70); fNaN; #(-70); fNaN; #(-50)], #(-65),
    [false; false; false; false; false; false; false], 2, 3, 4.
  split; [vm_compute; reflexivity|]. split; [|split; [vm_compute; reflexivity|]].
  - split; [simpl; lia|]. intros j Hj. assert (j = 3) as -> by lia. vm_compute. reflexivity.
  - split; [|split; vm_compute; reflexivity].
    split; [simpl; lia|]. intros j Hj. assert (j = 3) as -> by lia. vm_compute. reflexivity.
Qed.
Print Assumptions C11_low_neighbour_is_marked_refuted.

Example C11_case :
  notebook_mask (O := F64) [#(-50); #(-70); fNaN; fNaN; #(-50); fNaN; #(-70); #(-50); fNaN] #(-65)
  = Ok [false; false; true; true; false; true; false; false; false].
Proof. vm_compute. reflexivity. Qed.

Theorem C12_any_markers :
  forall (rsl : list F64) gs ge,
  length gs = length rsl -> length ge = length rsl ->
  exists m, created_blackout_gap_mask rsl gs ge = Ok m /\ length m = length rsl /\
    forall i, i < length rsl ->
      (get false m i = true <->
       is_missing rsl i /\
       exists j, j <= i /\ get false gs j = true /\ get false ge j = false /\
         forall k, j < k <= i -> is_missing rsl k /\ get false ge k = false).
Proof. exact mask_general. Qed.
Print Assumptions C12_any_markers.

Example C12_case :
  created_blackout_gap_mask (O := F64) [fNaN; fNaN; #1; fNaN; fNaN; fNaN]
     [true; false; false; true; false; false] [false; false; false; false; true; false]
  = Ok [true; true; false; true; false; false].
Proof. vm_compute. reflexivity. Qed.
