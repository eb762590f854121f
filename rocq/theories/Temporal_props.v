(** * Properties C47-C49: aggregation onto a new time index *)
From Coq Require Import List ZArith Bool String Reals Lra Lia Sorted.
From Verif Require Import Base RealStat Temporal_model Temporal_spec Temporal_proofs.
Import ListNotations.
Local Open Scope Z_scope.

Theorem C47_every_sample_in_its_bin : forall (V W : Type) (df : list (Z * V)) (new : list Z) (method : list V -> W) label o a b,
  df <> [] -> increasing new -> common_period (map fst df) new a b -> label = "right"%string \/ label = "left"%string ->
  exists ls g (member : Z -> Z * V -> bool),
  aggregate_df_onto_DatetimeIndex true df (Aware new) method label o = Ok g /\
  increasing ls /\
  (forall n, In n ls <-> exists t v, In (t, v) df /\ label_of label new a b t n) /\
  (forall n t v, In (t, v) df -> (member n (t, v) = true <-> label_of label new a b t n)) /\
  g = map (fun n => (n, method (map snd (filter (member n) df)))) ls.
Proof. exact @aggregate_aware. Qed.
Print Assumptions C47_every_sample_in_its_bin.

Theorem C47_at_most_one_bin : forall label new a b t n m,
  label_of label new a b t n -> label_of label new a b t m -> n = m.
Proof. exact label_unique. Qed.
Print Assumptions C47_at_most_one_bin.

Theorem C47_rejects : forall (V W : Type) (df : list (Z * V)) new (method : list V -> W) label o b,
  (label <> "right"%string -> label <> "left"%string -> aggregate_df_onto_DatetimeIndex b df new method label o = Err NotImplementedError) /\
  (label = "right"%string \/ label = "left"%string -> aggregate_df_onto_DatetimeIndex false df new method label o = Err TypeError).
Proof. exact @aggregate_rejects. Qed.
Print Assumptions C47_rejects.

(** samples at 1..7, new index 0, 3, 5, 9.  Right: 1,2,3 -> 3 and 4,5 -> 5, 6 and 7 are
    dropped; left: 1 and 2 are dropped, 3,4 -> 3 and 5,6,7 -> 5 *)
Definition samples := map (fun t => (t, 10 * t)) [1; 2; 3; 4; 5; 6; 7].
Example C47_case_right : aggregate_df_onto_DatetimeIndex true samples (Aware [0; 3; 5; 9]) (fun l => l) "right" 0 = Ok [(3, [10; 20; 30]); (5, [40; 50])].
Proof. reflexivity. Qed.
Example C47_case_left : aggregate_df_onto_DatetimeIndex true samples (Aware [0; 3; 5; 9]) (fun l => l) "left" 0 = Ok [(3, [30; 40]); (5, [50; 60; 70])].
Proof. reflexivity. Qed.
(** a new index starting inside the data: the first right bin holds only the sample at its label *)
Example C47_case_first_bin : aggregate_df_onto_DatetimeIndex true samples (Aware [3; 5]) (fun l => l) "right" 0 = Ok [(3, [30]); (5, [40; 50])].
Proof. reflexivity. Qed.

Theorem C48_sums_are_conserved_exact : forall (df : list (Z * R)) (new : list Z) label o a b,
  df <> [] -> increasing new -> common_period (map fst df) new a b -> label = "right"%string \/ label = "left"%string ->
  exists g (labelled : Z * R -> bool), aggregate_df_onto_DatetimeIndex true df (Aware new) rsum label o = Ok g /\
  (forall t v, In (t, v) df -> (labelled (t, v) = true <-> exists n, label_of label new a b t n)) /\
  rsum (map snd g) = rsum (map snd (filter labelled df)).
Proof. exact aggregate_conserves. Qed.
Print Assumptions C48_sums_are_conserved_exact.

Example C48_case : exists x y, aggregate_df_onto_DatetimeIndex true [(1, 1%R); (2, 2%R); (4, 4%R)] (Aware [2; 4]) rsum "right" 0 = Ok [(2, x); (4, y)] /\
  (x + y = 6)%R.
Proof. do 2 eexists. split; [reflexivity|]. cbn. lra. Qed.

Theorem C49_naive_index_labels_are_shifted : forall (V W : Type) (df : list (Z * V)) (clock : list Z) (method : list V -> W) label o,
  df <> [] -> clock <> [] -> increasing clock -> label = "right"%string \/ label = "left"%string ->
  exists g, aggregate_df_onto_DatetimeIndex true df (Aware (map (fun c => c - o) clock)) method label o = Ok g /\
  aggregate_df_onto_DatetimeIndex true df (Naive clock) method label o = Ok (map (fun r => (fst r + o, snd r)) g).
Proof. exact @aggregate_naive_shift. Qed.
Print Assumptions C49_naive_index_labels_are_shifted.

(** what [new_index_tz] promises: a naive index behaves like the localized one *)
Theorem C49_naive_index_refuted : exists (df : list (Z * Z)) clock o, df <> [] /\ increasing clock /\
  aggregate_df_onto_DatetimeIndex true df (Naive clock) (fun l => l) "right" o <>
  aggregate_df_onto_DatetimeIndex true df (Aware (map (fun c => c - o) clock)) (fun l => l) "right" o.
Proof.
  exists samples, [4; 6], 2. split; [discriminate|]. split; [repeat constructor|].
  vm_compute. discriminate.
Qed.
Print Assumptions C49_naive_index_refuted.

(** clock 4, 6 in a zone 2 units ahead of UTC are the instants 2, 4; the result is labelled 4, 6 *)
Example C49_case : aggregate_df_onto_DatetimeIndex true samples (Naive [4; 6]) (fun l => l) "right" 2 = Ok [(4, [20]); (6, [30; 40])].
Proof. reflexivity. Qed.
