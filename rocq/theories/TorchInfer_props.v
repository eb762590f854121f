(** * Properties C67-C69: PyTorch CNN inference *)
From Coq Require Import List ZArith Bool String Lia.
From Verif Require Import Base Num NumF64 NumList TorchInfer_model TorchInfer_spec TorchInfer_proofs TorchInfer_proofs2.
Import ListNotations.
Local Open Scope nat_scope.
Local Notation length := List.length.

Theorem C67_windows_and_targets : forall (A : Type) (ts : list A) times (w : nat) (ref : Z), 0 < w -> length times = length ts -> (2 <= ref)%Z ->
  exists ws tt, rolling_window ts times (Z.of_nat w) ref = Ok (ws, tt) /\ length ws = length ts + 1 - w /\ length tt = length ws /\
  forall k, k < length ws -> get [] ws k = slice k (k + w) ts /\
    let h := Z.to_nat (ref / 2) in get 0%Z tt k = get 0%Z times (if h <=? k + w then k + w - h else k + w - 1).
Proof. exact @rolling_correct. Qed.
Print Assumptions C67_windows_and_targets.

Theorem C67_targets_distinct_or_shared : forall (A : Type) (ts : list A) times (w : nat) (ref : Z) ws tt,
  0 < w -> length times = length ts -> (2 <= ref)%Z -> rolling_window ts times (Z.of_nat w) ref = Ok (ws, tt) ->
  let h := Z.to_nat (ref / 2) in
  (NoDup times -> h <= w -> NoDup tt) /\
  (forall k, w < h -> k < h - w -> k + (h - 1) < length ws -> get 0%Z tt k = get 0%Z tt (k + (h - 1))).
Proof. exact @rolling_targets. Qed.
Print Assumptions C67_targets_distinct_or_shared.

Theorem C67_rejects : forall (A : Type) (ts : list A) times ws ref,
  ((ws <= 0)%Z \/ length times <> length ts -> rolling_window ts times ws ref = Err AssertionError) /\
  (length times = length ts -> (0 < ws <= Z.of_nat (length ts))%Z -> (ref < 2)%Z -> rolling_window ts times ws ref = Err IndexError) /\
  (length times = length ts -> (0 < ws)%Z -> (Z.of_nat (length ts) < ws)%Z -> rolling_window ts times ws ref = Ok ([], [])).
Proof. exact @rolling_rejects. Qed.
Print Assumptions C67_rejects.

Example C67_case : rolling_window [10; 11; 12; 13; 14] [0; 1; 2; 3; 4]%Z 3 4 = Ok ([[10; 11; 12]; [11; 12; 13]; [12; 13; 14]], [1; 2; 3]%Z) /\
  rolling_window [10; 11; 12; 13; 14] [0; 1; 2; 3; 4]%Z 2 7 = Ok ([[10; 11]; [11; 12]; [12; 13]; [13; 14]], [1; 0; 1; 2]%Z) /\
  rolling_window [10; 11; 12; 13; 14] [0; 1; 2; 3; 4]%Z 3 1 = Err IndexError.
Proof. vm_compute. auto. Qed.

Theorem C68_predictions_at_target_time : forall (O : numops) net f (d : cube O) (w : nat) b (ref : Z),
  cube_ok d -> c_ids d <> [] -> samplewise net f -> (1 <= b)%Z -> (2 <= ref)%Z ->
  0 < w <= length (c_times d) -> Z.to_nat (ref / 2) <= w ->
  exists m, cnn_wd net (Z.of_nat w) d b ref = Ok m /\ length m = length (c_times d) /\
  forall t, t < length (c_times d) -> length (get [] m t) = length (c_ids d) /\ forall i, i < length (c_ids d) ->
    let e := t + Z.to_nat (ref / 2) in
    (w <= e <= length (c_times d) -> exists x, input_at d i (e - w) w x /\ nget (get [] m t) i = f x) /\
    (e < w \/ length (c_times d) < e -> nget (get [] m t) i = n_nan).
Proof. exact @cnn_wd_ok. Qed.
Print Assumptions C68_predictions_at_target_time.

Theorem C68_rejects : forall (O : numops) net (d : cube O) (w : nat) b (ref : Z), cube_ok d -> 0 < w ->
  (c_ids d = [] -> cnn_wd net (Z.of_nat w) d b ref = Err ValueError) /\
  (c_ids d <> [] -> length (c_times d) < w -> cnn_wd net (Z.of_nat w) d b ref = Err RuntimeError) /\
  (c_ids d <> [] -> w <= length (c_times d) -> (ref < 2)%Z -> cnn_wd net (Z.of_nat w) d b ref = Err IndexError) /\
  (c_ids d <> [] -> w <= length (c_times d) -> (2 <= ref)%Z -> (b <= 0)%Z -> cnn_wd net (Z.of_nat w) d b ref = Err ValueError).
Proof. exact @cnn_wd_rejects. Qed.
Print Assumptions C68_rejects.

Definition demo_cube : cube F64 := {| c_ids := ["a"; "b"]%string; c_times := [100; 110; 120; 130]%Z; c_channels := 2;
  c_values := [[[#1; #10]; [#2; #20]; [#3; #30]; [#4; #40]]; [[#5; #50]; [#6; #60]; [#7; #70]; [fNaN; #80]]] |}.
(** the "network" subtracts the first value of channel 0 from the last value of channel 1 *)
Definition demo_f (x : list (list F64)) : F64 := f_sub (nget (get [] x 1) 2) (nget (get [] x 0) 0).
Definition rows_of (r : res (list (list F64))) (e : list (list F64)) : bool :=
  match r with Ok m => (length m =? length e) && forallb (fun t => f_same_list (get [] m t) (get [] e t)) (seq 0 (length e)) | Err _ => false end.
Example C68_case : rows_of (cnn_wd (map demo_f) 3 demo_cube 1 4) [[fNaN; fNaN]; [#29; #65]; [#38; #74]; [fNaN; fNaN]] = true.
Proof. vm_compute. reflexivity. Qed.
Example C68_case_short : cnn_wd (map demo_f) 5 demo_cube 1 4 = Err RuntimeError.
Proof. vm_compute. reflexivity. Qed.

Theorem C69_batch_size_irrelevant : forall (O : numops) net f ws (d : cube O) b b' r, samplewise net f -> (1 <= b)%Z -> (1 <= b')%Z ->
  run_inference net ws d b r = run_inference net ws d b' r.
Proof. exact @batch_size_irrelevant. Qed.
Print Assumptions C69_batch_size_irrelevant.

(** a network that is not samplewise sees the difference *)
Example C69_case : let preds net b := match run_inference net 3 demo_cube b 4 with Ok (p, _, _) => p | Err _ => [] end in
  f_same_list (preds (map demo_f) 1%Z) (preds (map demo_f) 3%Z) = true /\ f_same_list (preds (map demo_f) 3%Z) [#29; #38; #65; #74] = true /\
  f_same_list (preds (fun b => map (fun _ => #(Z.of_nat (length b))) b) 3%Z) [#3; #3; #3; #1] = true.
Proof. vm_compute. repeat split; reflexivity. Qed.
