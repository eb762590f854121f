(** * Property C123: the blackout notebook, from raw levels to the plotted gaps *)
From Coq Require Import List ZArith Bool Lia.
From Verif Require Import Base Num NumF64 NumList Blackout_model Blackout_spec Blackout_proofs BlackoutNb_model BlackoutNb_spec BlackoutNb_proofs.
Import ListNotations.
Local Open Scope nat_scope.

(** From raw levels: only samples at or below the fill value (or missing) are
    marked, and all samples between them and a low measured level are so too. *)
Theorem C123_mask_of_raw_levels : forall (fill thr : F64) (raw : list F64),
  exists m, blackout_mask fill thr raw = Ok m /\ length m = length raw /\
  forall i, i < length raw -> get false m i = true -> n_ltb fill (get n_nan raw i) = false /\
    exists p, p < length raw /\ n_ltb fill (get n_nan raw p) = true /\ n_ltb (get n_nan raw p) thr = true /\
      forall j, (p < j <= i \/ i <= j < p) -> n_ltb fill (get n_nan raw j) = false.
Proof. exact (raw_mask F64sem). Qed.
Print Assumptions C123_mask_of_raw_levels.

Example C123_case :
  blackout_mask (#(-99)) (#(-65)) [#(-50); #(-70); #(-99); fNaN; #(-50); #(-100); #(-50)] = Ok [false; false; true; true; false; false; false].
Proof. vm_compute. reflexivity. Qed.

(** a record read backwards has the same gaps *)
Theorem C123_reversed_record : forall (rsl : list F64) (thr : F64) m,
  notebook_mask rsl thr = Ok m -> notebook_mask (rev rsl) thr = Ok (rev m).
Proof. exact mask_rev. Qed.
Print Assumptions C123_reversed_record.

(** the single scan has not: it sees only gaps that begin with a low level *)
Theorem C123_single_scan_refuted : exists (rsl : list F64) (thr : F64) m m',
  (let '(gs, ge) := get_blackout_start_and_end rsl thr in created_blackout_gap_mask rsl gs ge) = Ok m /\
  (let '(gs, ge) := get_blackout_start_and_end (rev rsl) thr in created_blackout_gap_mask (rev rsl) gs ge) = Ok m' /\ m' <> rev m.
Proof.
  exists [#(-50); #(-70); fNaN; #(-50); #(-50)], #(-65), [false; false; true; false; false], [false; false; false; false; false].
  split; [vm_compute; reflexivity|]. split; [vm_compute; reflexivity|]. discriminate.
Qed.
Print Assumptions C123_single_scan_refuted.

(** a higher threshold loses no marked sample *)
Theorem C123_threshold : forall (rsl : list F64) (thr thr' : F64) m m', n_leb thr thr' = true ->
  notebook_mask rsl thr = Ok m -> notebook_mask rsl thr' = Ok m' -> forall i, get false m i = true -> get false m' i = true.
Proof. exact (mask_threshold F64sem). Qed.
Print Assumptions C123_threshold.

Example C123_case_threshold :
  let rsl : list F64 := [#(-50); #(-62); fNaN; #(-50); #(-50); #(-70); fNaN; #(-50)] in
  notebook_mask rsl (#(-65)) = Ok [false; false; false; false; false; false; true; false] /\
  notebook_mask rsl (#(-60)) = Ok [false; false; true; false; false; false; true; false].
Proof. vm_compute. auto. Qed.

(** Which gaps are plotted: all except the latest and those less than an hour
    before another one. *)
Theorem C123_plotted_gaps : forall times r, increasing times -> gap_time times = Ok r ->
  forall t, In t r <-> In t times /\ ~ latest times t /\ ~ soon_before_another times t.
Proof. exact plotted_iff. Qed.
Print Assumptions C123_plotted_gaps.

(** there is a result if there is a gap, otherwise an IndexError *)
Theorem C123_no_gap_refuted : gap_time [] = Err IndexError /\
  forall times, times <> [] -> increasing times -> exists r, gap_time times = Ok r.
Proof. split; [exact gap_time_nil|]. intros times N I. destruct (gap_time_ok times N I) as (r & E & _). exists r. exact E. Qed.
Print Assumptions C123_no_gap_refuted.

(** The comment says that gaps less than 60 minutes after another are removed.
    Instead the earlier gap of such a pair is removed and the later one may be
    plotted, and the latest gap is never plotted, even if it is the only one. *)
Theorem C123_documented_choice_refuted : exists times r a b, increasing times /\ gap_time times = Ok r /\
  soon_after_another times a /\ In a r /\ In b times /\ ~ soon_after_another times b /\ ~ In b r.
Proof.
  set (m := (60 * 1000000000)%Z). exists [0; 30 * m; 300 * m; 500 * m]%Z, [30 * m; 300 * m]%Z, (30 * m)%Z, (500 * m)%Z.
  split; [|split; [vm_compute; reflexivity|]].
  - intros i j [H1 H2]. cbn [length] in H2. destruct j as [|[|[|[|j]]]]; [lia| | | |lia]; destruct i as [|[|[|i]]]; try lia; vm_compute; reflexivity.
  - split; [exists 0%Z; split; [left; auto|vm_compute; auto]|]. split; [left; auto|]. split; [do 3 right; left; auto|]. split.
    + intros (s & Hs & H). unfold hour, m in *. destruct Hs as [<-|[<-|[<-|[<-|[]]]]]; lia.
    + intros [H|[H|[]]]; unfold m in H; lia.
Qed.
Print Assumptions C123_documented_choice_refuted.

Example C123_case_single : gap_time [1000000%Z] = Ok [].
Proof. reflexivity. Qed.
