(** * Property C118: aggregating in two steps *)
From Coq Require Import List ZArith String Bool Lia Permutation Sorted Reals Lra.
From Verif Require Import Base Temporal_model Temporal_spec Reagg_spec RealStat Reagg_proofs.
Import ListNotations.
Local Open Scope Z_scope.

(** first onto a fine index, then onto a coarse one made of some of its timestamps *)
Theorem C118_two_steps : forall (V : Type) (f : list V -> V) (df : list (Z * V)) (fine coarse : list Z) label o,
  poolable f -> df <> [] -> increasing fine -> increasing coarse -> (forall c, In c coarse -> In c fine) ->
  label = "right"%string \/ label = "left"%string -> reaches label (map fst df) coarse ->
  forall a1 b1 a b, common_period (map fst df) fine a1 b1 -> common_period (map fst df) coarse a b ->
  no_gap label (map fst df) fine a1 b1 -> (exists n, In n fine /\ a1 <= n <= b1) ->
  exists g1 g,
  aggregate_df_onto_DatetimeIndex true df (Aware fine) f label o = Ok g1 /\
  aggregate_df_onto_DatetimeIndex true g1 (Aware coarse) f label o = Ok g /\
  aggregate_df_onto_DatetimeIndex true df (Aware coarse) f label o = Ok g.
Proof. intros V f df fine coarse label o P. intros. exact (two_steps f df fine coarse label o H H0 H1 H2 H3 H4 _ _ _ _ H5 H6 H7 H8 P). Qed.
Print Assumptions C118_two_steps.

Theorem C118_sum_is_poolable_exact : poolable rsum.
Proof. exact rsum_poolable. Qed.
Print Assumptions C118_sum_is_poolable_exact.
Theorem C118_maximum_is_poolable : poolable z_max.
Proof. exact z_max_poolable. Qed.
Print Assumptions C118_maximum_is_poolable.

(** with a gap in the data (no sample in the fine bins at 4 and 5) the two ways differ:
    in two steps the sample at 1 is lost *)
Theorem C118_gap_refuted : exists (df : list (Z * Z)) fine coarse a1 b1 g1,
  increasing fine /\ increasing coarse /\ (forall c, In c coarse -> In c fine) /\ reaches "right" (map fst df) coarse /\
  common_period (map fst df) fine a1 b1 /\ (exists n, In n fine /\ a1 <= n <= b1) /\
  aggregate_df_onto_DatetimeIndex true df (Aware fine) z_max "right" 0 = Ok g1 /\ g1 <> [] /\
  aggregate_df_onto_DatetimeIndex true g1 (Aware coarse) z_max "right" 0 = Ok [] /\
  aggregate_df_onto_DatetimeIndex true df (Aware coarse) z_max "right" 0 = Ok [(5, 10)].
Proof.
  exists [(1, 10); (7, 20)], [0; 2; 4; 5], [0; 5], 1, 5, [(2, 10)].
  split; [repeat constructor|]. split; [repeat constructor|].
  split; [intros c [<-|[<-|[]]]; cbn; auto|].
  split; [exists 0; split; [left; reflexivity|]; intros t [<-|[<-|[]]]; cbn [fst]; split; intros; lia || discriminate|].
  split.
  { exists 1, 7, 0, 5. split; [|split; [|split; reflexivity]].
    - split; [left; reflexivity|]. split; [right; left; reflexivity|]. intros t [<-|[<-|[]]]; cbn [fst]; lia.
    - split; [left; reflexivity|]. split; [do 3 right; left; reflexivity|]. intros t [<-|[<-|[<-|[<-|[]]]]]; cbn [fst]; lia. }
  split; [exists 2; split; [right; left; reflexivity|lia]|].
  split; [reflexivity|]. split; [discriminate|]. split; reflexivity.
Qed.
Print Assumptions C118_gap_refuted.

(** a coarse index that begins inside the data: its first bin holds the sample at its label
    only, but in two steps the whole fine bin *)
Theorem C118_late_start_refuted : exists (df : list (Z * Z)) fine coarse a1 b1 g1,
  increasing fine /\ increasing coarse /\ (forall c, In c coarse -> In c fine) /\
  common_period (map fst df) fine a1 b1 /\ no_gap "right" (map fst df) fine a1 b1 /\
  aggregate_df_onto_DatetimeIndex true df (Aware fine) z_max "right" 0 = Ok g1 /\
  aggregate_df_onto_DatetimeIndex true g1 (Aware coarse) z_max "right" 0 = Ok [(2, 30); (4, 20)] /\
  aggregate_df_onto_DatetimeIndex true df (Aware coarse) z_max "right" 0 = Ok [(2, 10); (4, 20)].
Proof.
  exists [(1, 30); (2, 10); (3, 20); (4, 5)], [0; 2; 4], [2; 4], 1, 4, [(2, 30); (4, 20)].
  split; [repeat constructor|]. split; [repeat constructor|].
  split; [intros c [<-|[<-|[]]]; cbn; auto|].
  split.
  { exists 1, 4, 0, 4. split; [|split; [|split; reflexivity]].
    - split; [left; reflexivity|]. split; [do 3 right; left; reflexivity|]. intros t [<-|[<-|[<-|[<-|[]]]]]; cbn [fst]; lia.
    - split; [left; reflexivity|]. split; [do 2 right; left; reflexivity|]. intros t [<-|[<-|[<-|[]]]]; lia. }
  split.
  { intros n [<-|[<-|[<-|[]]]] H; [lia| |].
    - exists 2. split; [cbn; auto|]. left. split; auto. split; [lia|]. split; [lia|]. split; [cbn; auto|]. split; [lia|]. intros m [<-|[<-|[<-|[]]]]; lia.
    - exists 4. split; [cbn; auto|]. left. split; auto. split; [lia|]. split; [lia|]. split; [cbn; auto|]. split; [lia|]. intros m [<-|[<-|[<-|[]]]]; lia. }
  split; [reflexivity|]. split; reflexivity.
Qed.
Print Assumptions C118_late_start_refuted.

(** means of means are not the mean: 1 and (2 + 3) / 2 *)
Theorem C118_mean_refuted_exact : ~ poolable rmean.
Proof.
  intros [_ H]. specialize (H [[1%R]; [2%R; 3%R]]). cbn in H. 
  assert (E : ((1 + (2 + (3 + 0))) / (1 + 1 + 1) = ((1 + 0) / 1 + ((2 + (3 + 0)) / (1 + 1) + 0)) / (1 + 1))%R).
  { apply H; [discriminate|]. intros [K|[K|[]]]; discriminate. }
  lra.
Qed.
Print Assumptions C118_mean_refuted_exact.

(** hourly onto two-hourly, both labels *)
Definition hours := map (fun t => (t, 10 * t)) [1; 2; 3; 4; 5; 6; 7; 8].
Example C118_case_right :
  aggregate_df_onto_DatetimeIndex true hours (Aware [0; 2; 4; 6; 8]) z_max "right" 0 = Ok [(2, 20); (4, 40); (6, 60); (8, 80)] /\
  aggregate_df_onto_DatetimeIndex true [(2, 20); (4, 40); (6, 60); (8, 80)] (Aware [0; 4; 8]) z_max "right" 0 = Ok [(4, 40); (8, 80)] /\
  aggregate_df_onto_DatetimeIndex true hours (Aware [0; 4; 8]) z_max "right" 0 = Ok [(4, 40); (8, 80)].
Proof. repeat split. Qed.
Example C118_case_left :
  aggregate_df_onto_DatetimeIndex true hours (Aware [0; 2; 4; 6; 8]) z_max "left" 0 = Ok [(2, 30); (4, 50); (6, 70); (8, 80)] /\
  aggregate_df_onto_DatetimeIndex true [(2, 30); (4, 50); (6, 70); (8, 80)] (Aware [0; 4; 8]) z_max "left" 0 = Ok [(4, 70); (8, 80)] /\
  aggregate_df_onto_DatetimeIndex true hours (Aware [0; 4; 8]) z_max "left" 0 = Ok [(4, 70); (8, 80)].
Proof. repeat split. Qed.
