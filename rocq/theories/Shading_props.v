(** * Property C124: the wet periods shaded in the notebooks *)
From Coq Require Import List ZArith Bool Lia.
From Verif Require Import Base Num NumF64 NumList Blackout_model Blackout_proofs Workflow_model Workflow_spec Workflow_proofs Workflow_props Shading_model Shading_spec Shading_proofs.
Import ListNotations.
Local Open Scope nat_scope.

(** If a record begins and ends dry, the shaded areas are exactly its wet periods,
    from the last dry step before to the first dry step after, and [zip] drops
    nothing. *)
Theorem C124_shaded_periods : forall wet : list bool, dry_ends wet ->
  length (nonzero (rolled_and_dry (-1) wet)) = length (nonzero (rolled_and_dry 1 wet)) /\
  (forall a b, In (a, b) (shaded wet) <-> wet_period wet a b) /\
  forall i, i < length wet -> (get false wet i = true <-> exists a b, In (a, b) (shaded wet) /\ a < i < b).
Proof.
  intros wet D. destruct (shaded_periods wet D) as [L P]. split; [exact L|]. split; [exact P|]. intros i Hi. rewrite (wet_in_period wet i D Hi).
  split; intros (a & b & H & K); exists a, b; (split; [apply P; exact H|exact K]).
Qed.
Print Assumptions C124_shaded_periods.

Example C124_case : shaded [false; true; true; false; true; false; false; true; false] = [(0, 3); (3, 5); (6, 8)].
Proof. vm_compute. reflexivity. Qed.

(** Otherwise the starts and ends are paired wrongly. *)
Theorem C124_open_ends_refuted : exists wet a b i, In (a, b) (shaded wet) /\ ~ wet_period wet a b /\ b < a /\
  get false wet i = true /\ forall a' b', In (a', b') (shaded wet) -> ~ a' < i < b'.
Proof.
  exists [false; true; false; false; true], 3, 2, 1. split; [vm_compute; auto|]. split; [intros ((H & _) & _); lia|]. split; [lia|]. split; [reflexivity|].
  intros a b H. vm_compute in H. destruct H as [E|[E|[]]]; injection E as <- <-; lia.
Qed.
Print Assumptions C124_open_ends_refuted.

(** The wet-dry notebook sets the first and the last flag to dry before.  Then
    exactly the wet steps in between are shaded, whatever the flags. *)
Theorem C124_cleared_ends : forall (wet : list bool) i, i < length wet ->
  (exists a b, In (a, b) (shaded (clear_ends wet)) /\ a < i < b) <-> get false wet i = true /\ 0 < i /\ i + 1 < length wet.
Proof.
  intros wet i Hi. destruct (C124_shaded_periods _ (clear_ends_dry wet)) as (_ & _ & P). rewrite <- P by (rewrite clear_ends_length; exact Hi).
  rewrite clear_ends_get by exact Hi. rewrite !andb_true_iff, !negb_true_iff, !Nat.eqb_neq. split; [intros [[A B] C]|intros (A & B & C)]; repeat split; auto; lia.
Qed.
Print Assumptions C124_cleared_ends.

Example C124_case_cleared : shaded (clear_ends [true; true; false; true; true]) = [(0, 2); (2, 4)].
Proof. vm_compute. reflexivity. Qed.

(** The workflow notebook rolls the flattened array of all channels and draws the
    first.  With a rolling window of at least 3 steps every record begins and ends
    dry, so its areas are the wet periods of that channel alone. *)
Theorem C124_workflow_flags : forall std w (th : F64) (first : list F64) rest, 3 <= w ->
  let wet := fun l => map n_truthy (wet_flags std w th l) in
  forall a b, In (a, b) (shaded_channel (length first) (map wet (first :: rest))) <-> wet_period (wet first) a b.
Proof. intros std w th first rest. exact (flags_periods F64sem std w th first rest). Qed.
Print Assumptions C124_workflow_flags.

(** With other flags the second channel shows in the areas of the first. *)
Theorem C124_other_channel_refuted : exists first other other' : list bool, length other = length other' /\ dry_ends first /\
  shaded_channel (length first) [first; other] <> shaded_channel (length first) [first; other'].
Proof.
  exists [false; true; false; true; false], [false; false; false; false; false], [false; false; false; false; true].
  split; [reflexivity|]. split; [intros _; split; reflexivity|]. vm_compute. discriminate.
Qed.
Print Assumptions C124_other_channel_refuted.
