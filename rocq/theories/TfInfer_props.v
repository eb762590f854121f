(** * Properties C62-C64: 1D CNN inference *)
From Coq Require Import List ZArith Bool String Reals Lra Lia.
From Verif Require Import Base Num NumF64 NumList RealSpec RealStat TfInfer_model TfInfer_spec TfInfer_proofs TfInfer_proofs2 TfInfer_proofs3.
Import ListNotations.
Local Open Scope nat_scope.
Local Notation length := List.length.
Local Open Scope string_scope.

Theorem C62_predictions_at_window_end : forall (O : numops) (net : list (list O) -> O) (ds : dataset O) vars seq_len sel,
  NoDup (ds_ids ds) -> 1 <= seq_len -> has_vars ds vars -> vars <> [] ->
  (exists j t w, has_window ds vars seq_len sel j t w) ->
  exists X ps m, wet_dry_1d_cnn net ds vars seq_len sel = Ok m /\
  all_windows ds vars seq_len sel X /\
  ps = map (fun k => fit_scaler (feature k X)) (seq 0 (length vars)) /\
  length m = ds_time ds /\ forall t, t < ds_time ds -> length (get [] m t) = length (ds_ids ds) /\ forall j, j < length (ds_ids ds) ->
    (forall w, has_window ds vars seq_len sel j t w -> exists z, scaled ps w z /\ nget (get [] m t) j = net z) /\
    ((forall w, ~ has_window ds vars seq_len sel j t w) -> nget (get [] m t) j = n_nan).
Proof. exact @cnn_correct. Qed.
Print Assumptions C62_predictions_at_window_end.

Theorem C62_no_window_anywhere : forall (O : numops) (net : list (list O) -> O) (ds : dataset O) vars seq_len sel,
  NoDup (ds_ids ds) -> 1 <= seq_len -> has_vars ds vars -> vars <> [] ->
  (forall j t w, ~ has_window ds vars seq_len sel j t w) -> wet_dry_1d_cnn net ds vars seq_len sel = Err IndexError.
Proof. exact @cnn_no_samples. Qed.
Print Assumptions C62_no_window_anywhere.

Definition rows_of (r : res (list (list F64))) (e : list (list F64)) : bool :=
  match r with Ok m => (List.length m =? List.length e)%nat && forallb (fun t => f_same_list (get [] m t) (get [] e t)) (seq 0 (List.length e)) | Err _ => false end.
Definition demo_ds (a b : list F64) : dataset F64 := {| ds_ids := ["a"; "b"]; ds_time := 4; ds_vars := [("TL", [a; b])] |}.
(** the "network" adds up its window; windows of link a: (1,1) (1,5) (5,5), mean 3 and deviation 2 *)
Example C62_case : rows_of (wet_dry_1d_cnn (fun w => n_sum (List.concat w)) (demo_ds [#1; #1; #5; #5] [fNaN; #7; fNaN; #7]) ["TL"] 2 None)
  [[fNaN; fNaN]; [#(-2); fNaN]; [#0; fNaN]; [#2; fNaN]] = true.
Proof. vm_compute. reflexivity. Qed.
Example C62_case_none : wet_dry_1d_cnn (fun w => n_sum (List.concat w)) (demo_ds [#1; #1; #5; #5] [fNaN; #7; fNaN; #7]) ["TL"] 2 (Some ["b"]) = Err IndexError.
Proof. vm_compute. reflexivity. Qed.

Theorem C63_cells_and_predictions : forall (O : numops) (ds : dataset O) prob cml_ids ti u,
  length prob = length cml_ids -> length prob = length ti ->
  (forall r, In r (zip3 prob cml_ids ti) -> In (snd (fst r)) (used cml_ids u) -> In (snd (fst r)) (ds_ids ds) -> - Z.of_nat (ds_time ds) <= snd r)%Z ->
  exists m, store_predictions ds prob cml_ids ti u = Ok m /\ length m = ds_time ds /\ forall t, t < ds_time ds -> length (get [] m t) = length (ds_ids ds) /\
  forall j, j < length (ds_ids ds) ->
   (forall v, last_for (ds_time ds) (ds_ids ds) (used cml_ids u) (zip3 prob cml_ids ti) t j v -> nget (get [] m t) j = v) /\
   ((forall r, In r (zip3 prob cml_ids ti) -> ~ addresses (ds_time ds) (ds_ids ds) (used cml_ids u) r t j) -> nget (get [] m t) j = n_nan).
Proof. exact @store_correct. Qed.
Print Assumptions C63_cells_and_predictions.

Theorem C63_rejects : forall (O : numops) (ds : dataset O) prob cml_ids ti u,
  (length prob <> length cml_ids \/ length prob <> length ti -> store_predictions ds prob cml_ids ti u = Err ValueError) /\
  (length prob = length cml_ids -> length prob = length ti ->
   (exists r, In r (zip3 prob cml_ids ti) /\ In (snd (fst r)) (used cml_ids u) /\ In (snd (fst r)) (ds_ids ds) /\ (snd r < - Z.of_nat (ds_time ds))%Z) ->
   store_predictions ds prob cml_ids ti u = Err IndexError).
Proof. exact @store_rejects. Qed.
Print Assumptions C63_rejects.

(** later predictions win, -1 is the last step, step 9 and link c are dropped *)
Example C63_case : rows_of (store_predictions (demo_ds [] []) [#1; #2; #3; #4; #5] ["a"; "b"; "a"; "c"; "a"] [0; -1; 0; 1; 9]%Z None)
  [[#3; fNaN]; [fNaN; fNaN]; [fNaN; fNaN]; [fNaN; #2]] = true.
Proof. vm_compute. reflexivity. Qed.
Example C63_case_rejects : store_predictions (demo_ds [] []) [#1] ["a"; "b"] [0; 1]%Z None = Err ValueError /\
  store_predictions (demo_ds [] []) [#1; #2] ["a"; "b"] [0; -5]%Z None = Err IndexError.
Proof. vm_compute. split; reflexivity. Qed.

Theorem C64_scaling_exact : forall F X, rectangular F X -> (exists w row, In w X /\ In row w) ->
  exists Z, scale_features (ofR3 X) F F = Ok (ofR3 Z) /\ map (map (@length R)) Z = map (map (@length R)) X /\
  forall i, i < F ->
    rmean (featR i Z) = 0%R /\
    (~ nearly_constant (featR i X) -> rvar (featR i Z) = 1%R) /\
    (forall c, (forall x, In x (featR i X) -> x = c) -> forall z, In z (featR i Z) -> z = 0%R) /\
    (nearly_constant (featR i X) -> featR i Z = map (fun x => x - rmean (featR i X))%R (featR i X)).
Proof. exact scaling_correct. Qed.
Print Assumptions C64_scaling_exact.

Theorem C64_features_independent : forall F X Y i Z Z', rectangular F X -> rectangular F Y -> i < F -> featR i X = featR i Y ->
  scale_features (ofR3 X) F F = Ok (ofR3 Z) -> scale_features (ofR3 Y) F F = Ok (ofR3 Z') -> featR i Z = featR i Z'.
Proof. exact scaling_independent. Qed.
Print Assumptions C64_features_independent.

(** More variables than features in the samples: IndexError. *)
Theorem C64_too_many_variables : forall (O : numops) (X : list (list (list O))) n_vars n_features, (n_features < n_vars)%nat ->
  scale_features X n_vars n_features = Err IndexError.
Proof. intros O X nv nf H. unfold scale_features. apply Nat.ltb_lt in H. rewrite H. reflexivity. Qed.
Print Assumptions C64_too_many_variables.

Definition flat (r : res (list (list (list F64)))) : list F64 := match r with Ok Z => List.concat (List.concat Z) | Err _ => [] end.
(** feature 0 is 0, 2 and feature 1 is 7, 7 *)
Example C64_case : f_same_list (flat (scale_features [[[#0; #7]; [#2; #7]]] 2 2)) [#(-1); #0; #1; #0] = true.
Proof. vm_compute. reflexivity. Qed.
Example C64_case_varying : ~ nearly_constant [0; 2]%R.
Proof. unfold nearly_constant, rvar, rmean. cbn [length map rsum fold_right INR]. intros H. lra. Qed.
