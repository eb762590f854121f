(** * Property C118, continued: sums in two steps in binary64 *)
From Coq Require Import List ZArith Bool String Lia Reals Lra.
From Flocq Require Import Core IEEE754.BinarySingleNaN.
From Verif Require Import Base Num NumF64 NumList RealStat Temporal_model Temporal_spec HaversineFloat_spec FloatErr_spec SumFloat_spec SumFloat_proofs SumFloat_props
  Reagg_spec ReaggFloat_spec ReaggFloat_proofs.
Import ListNotations.
Local Open Scope Z_scope.
Local Notation length := List.length.

(** However the sums are computed, both ways give the same labels and for each
    of them the exact sum of its samples up to n * (2^-51 * sum + 2^-1072). *)
Theorem C118_sums_in_float :
  forall (f : list F64 -> F64) (df : list (Z * F64)) (fine coarse : list Z) label o a1 b1 a b,
  df <> [] -> increasing fine -> increasing coarse -> (forall c, In c coarse -> In c fine) ->
  label = "right"%string \/ label = "left"%string -> reaches label (map fst df) coarse ->
  common_period (map fst df) fine a1 b1 -> common_period (map fst df) coarse a b ->
  no_gap label (map fst df) fine a1 b1 -> (exists n, In n fine /\ a1 <= n <= b1) ->
  sums f -> (forall t v, In (t, v) df -> exists r, is_num v r /\ (0 <= r)%R) ->
  (INR (length df) <= 2 ^ 18)%R -> (rsum (map B2R (map snd df)) <= 2 ^ 900)%R ->
  exists g1 g2 g,
  aggregate_df_onto_DatetimeIndex true df (Aware fine) f label o = Ok g1 /\
  aggregate_df_onto_DatetimeIndex true g1 (Aware coarse) f label o = Ok g2 /\
  aggregate_df_onto_DatetimeIndex true df (Aware coarse) f label o = Ok g /\
  Forall2 (fun two one => fst two = fst one /\ exists p : Z * F64 -> bool,
    (forall t v, In (t, v) df -> p (t, v) = true <-> label_of label coarse a b t (fst one)) /\
    let bin := map snd (filter p df) in nearly (length bin) (rsum (map B2R bin)) (snd two) /\ nearly (length bin) (rsum (map B2R bin)) (snd one)) g2 g.
Proof. exact two_steps_nearly. Qed.
Print Assumptions C118_sums_in_float.

(** Counts of rain gauge tips, say, agree exactly. *)
Theorem C118_counts_in_float :
  forall (f : list F64 -> F64) (df : list (Z * F64)) (fine coarse : list Z) label o a1 b1 a b,
  df <> [] -> increasing fine -> increasing coarse -> (forall c, In c coarse -> In c fine) ->
  label = "right"%string \/ label = "left"%string -> reaches label (map fst df) coarse ->
  common_period (map fst df) fine a1 b1 -> common_period (map fst df) coarse a b ->
  no_gap label (map fst df) fine a1 b1 -> (exists n, In n fine /\ a1 <= n <= b1) ->
  forall e, exact_sum f -> countable e (map snd df) ->
  exists g1 g2 g,
  aggregate_df_onto_DatetimeIndex true df (Aware fine) f label o = Ok g1 /\
  aggregate_df_onto_DatetimeIndex true g1 (Aware coarse) f label o = Ok g2 /\
  aggregate_df_onto_DatetimeIndex true df (Aware coarse) f label o = Ok g /\
  Forall2 (fun two one => fst two = fst one /\ n_eqb (snd two) (snd one) = true) g2 g.
Proof. exact two_steps_counts. Qed.
Print Assumptions C118_counts_in_float.

(** Tenths do not: 0.1 + (0.2 + 0.3) is not (0.1 + 0.2) + 0.3. *)
Theorem C118_tenths_refuted : exists (fine coarse : list Z) g1 g2 g,
  increasing fine /\ increasing coarse /\ (forall c, In c coarse -> In c fine) /\ reaches "right" (map fst tenths) coarse /\
  common_period (map fst tenths) fine 1 3 /\ no_gap "right" (map fst tenths) fine 1 3 /\
  aggregate_df_onto_DatetimeIndex true tenths (Aware fine) (@n_sum F64) "right" 0 = Ok g1 /\
  aggregate_df_onto_DatetimeIndex true g1 (Aware coarse) (@n_sum F64) "right" 0 = Ok g2 /\
  aggregate_df_onto_DatetimeIndex true tenths (Aware coarse) (@n_sum F64) "right" 0 = Ok g /\
  map fst g2 = [3] /\ map fst g = [3] /\ n_eqb (get n_nan (map snd g2) 0) (get n_nan (map snd g) 0) = false.
Proof.
  exists [0; 1; 3], [0; 3]. do 3 eexists. split; [repeat constructor|]. split; [repeat constructor|].
  split; [intros c [<-|[<-|[]]]; cbn; auto|].
  split; [exists 0; split; [left; reflexivity|]; unfold tenths; cbn [map fst In]; intros t Ht; split; intros; [lia|discriminate]|]. split.
  { exists 1, 3, 0, 3. split; [|split; [|split; reflexivity]]; unfold first_last, tenths; cbn [map fst In]; intuition lia. }
  split.
  { intros n Hn H. cbn [In] in Hn. destruct Hn as [<-|[<-|[<-|[]]]]; [lia| |].
    - exists 1. split; [cbn; auto|]. left. split; [reflexivity|]. unfold right_label; cbn [In]; intuition lia.
    - exists 3. split; [cbn; auto|]. left. split; [reflexivity|]. unfold right_label; cbn [In]; intuition lia. }
  split; [reflexivity|]. split; [reflexivity|]. split; [reflexivity|]. split; [reflexivity|]. split; [reflexivity|]. vm_compute. reflexivity.
Qed.
Print Assumptions C118_tenths_refuted.

(** three counts in two steps and directly *)
Example C118_case_counts : let tips : list (Z * F64) := [(1, #1); (2, #2); (3, #3)] in
  match aggregate_df_onto_DatetimeIndex true tips (Aware [0; 1; 3]) (@n_sum F64) "right" 0 with
  | Ok g1 => match aggregate_df_onto_DatetimeIndex true g1 (Aware [0; 3]) (@n_sum F64) "right" 0, aggregate_df_onto_DatetimeIndex true tips (Aware [0; 3]) (@n_sum F64) "right" 0 with
             | Ok g2, Ok g => f_same_list (map snd g1) [#1; #5] && f_same_list (map snd g2) [#6] && f_same_list (map snd g) [#6] | _, _ => false end
  | Err _ => false end = true.
Proof. vm_compute. reflexivity. Qed.
