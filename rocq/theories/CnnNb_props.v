(** * Properties C127, C128: the notebooks "Use pytorch models" and "Use tensorflow models" *)
From Coq Require Import List ZArith Bool String Lia Reals.
From Verif Require Import Base Num NumF64 NumList Median TfInfer_model TorchInfer_model TorchInfer_spec KR_spec Workflow_model Workflow_spec
  Shift_spec CnnNb_model CnnNb_spec CnnNb_proofs CnnNb_proofs2.
Import ListNotations.
Local Open Scope nat_scope.
Local Notation length := List.length.

(** Every step and link gets a flag: whether the network's output, for the [w] samples
    up to 30 steps ahead relative to the median of each channel, exceeds the
    threshold; outside the record the flag is dry. *)
Theorem C127_flags : forall (net : list (list (list F64)) -> list F64) f thr ids times C (tl : list (list (list F64))) (w : nat),
  samplewise net f -> NoDup ids -> NoDup times -> ids <> [] -> rect C (series (length times)) (length ids) tl -> 30 <= w <= length times ->
  exists m, torch_wet net (Z.of_nat w) thr ids times C tl = Ok m /\ length m = length times /\
  forall t, t < length times -> length (get [] m t) = length ids /\ forall i, i < length ids ->
    (w <= t + 30 <= length times -> exists x, relative_window (get [] tl i) (t + 30 - w) w x /\ get false (get [] m t) i = n_ltb thr (f x)) /\
    (t + 30 < w \/ length times < t + 30 -> get false (get [] m t) i = false).
Proof. intros net f thr ids times C tl w HN NI NT NE. apply (torch_ok F64sem); auto. Qed.
Print Assumptions C127_flags.

(** With a network that passes NaN on, a wet flag needs [w] samples ending 29 steps
    later, all measured or in gaps short enough to be filled, in all channels. *)
Theorem C127_wet_needs_window : forall (net : list (list (list F64)) -> list F64) f thr (p : raw_par F64) x ids times C raw (w : nat) m t i,
  samplewise net f -> spreads_nan f -> NoDup ids -> NoDup times ->
  rect C (levels (length times)) (length ids) raw -> 30 <= w <= length times ->
  torch_nb net (Z.of_nat w) thr p x ids times C raw = Ok m -> t < length times -> i < length ids -> wet_at m t i ->
  w <= t + 30 <= length times /\ forall c k, c < C -> t + 30 - w <= k < t + 30 ->
    let q := get ([], []) (get [] raw i) c in
    no_inf (fst q) -> no_inf (snd q) -> bridged (rp_fill_t p) (rp_fill_r p) x (rp_max_gap p) (fst q) (snd q) k.
Proof. exact (torch_raw F64sem). Qed.
Print Assumptions C127_wet_needs_window.

(** a network that returns the first loss of the first channel, for windows of 31 steps:
    a fill value wipes out the flag of the one window that begins with it *)
Definition first_loss (b : list (list (list F64))) : list F64 := map (fun x => nget (get [] x 0) 0) b.
Definition cnn_raw : raw_par F64 := mk_raw_par #255 (f_div #(-999) #10) #5 0 #0.
Definition minutes (n : nat) : list Z := map Z.of_nat (seq 0 n).
Definition clock (n : nat) : list F64 := map n_ofZ (minutes n).
Definition wet_steps (r : res (list (list bool))) (i : nat) : list nat :=
  match r with Ok m => filter (fun t => get false (get [] m t) i) (seq 0 (length m)) | Err _ => [] end.
Definition nb31 (ids : list string) (tsl : list (list F64)) : res (list (list bool)) :=
  torch_nb first_loss 31 (f_div #8 #10) cnn_raw (clock 35) ids (minutes 35) 1 (map (fun l => [(l, repeat #0 35)]) tsl).
Definition early : list F64 := repeat #1 17 ++ repeat #0 18.
Example C127_case : wet_steps (nb31 ["a"; "b"]%string [early; upd 2 #255 (upd 4 #0 early)]) 0 = [1; 2; 3; 4; 5] /\
  wet_steps (nb31 ["a"; "b"]%string [early; upd 4 #0 early]) 1 = [1; 2; 3; 4] /\
  wet_steps (nb31 ["a"; "b"]%string [early; upd 0 #255 early]) 1 = [2; 3; 4; 5].
Proof. vm_compute. auto. Qed.

(** The flags of a link depend on its own losses only. *)
Theorem C127_links_are_independent : forall (net : list (list (list F64)) -> list F64) f thr times C (w : nat) ids tl ids' tl' m m' i i' t,
  samplewise net f -> NoDup times -> NoDup ids -> NoDup ids' ->
  rect C (series (length times)) (length ids) tl -> rect C (series (length times)) (length ids') tl' -> 30 <= w <= length times ->
  torch_wet net (Z.of_nat w) thr ids times C tl = Ok m -> torch_wet net (Z.of_nat w) thr ids' times C tl' = Ok m' ->
  i < length ids -> i' < length ids' -> t < length times -> get [] tl i = get [] tl' i' -> get false (get [] m t) i = get false (get [] m' t) i'.
Proof. exact (torch_independent F64sem). Qed.
Print Assumptions C127_links_are_independent.
Example C127_case_alone : wet_steps (nb31 ["b"]%string [early]) 0 = wet_steps (nb31 ["a"; "b"; "c"]%string [repeat #7 35; early; repeat fNaN 35]) 1 /\
  wet_steps (nb31 ["b"]%string [early]) 0 = [1; 2; 3; 4; 5].
Proof. vm_compute. auto. Qed.

(** In exact arithmetic a constant offset of each channel of each link changes no flag. *)
Theorem C127_offset_exact : forall c net w thr ids times C (tl tl' : list (list (list XR))), offset_of c tl tl' ->
  torch_wet net w thr ids times C tl' = torch_wet net w thr ids times C tl.
Proof. exact torch_off. Qed.
Print Assumptions C127_offset_exact.
Example C127_case_offset : wet_steps (nb31 ["a"]%string [map (fun v => n_add v #40) early]) 0 = [1; 2; 3; 4; 5].
Proof. vm_compute. reflexivity. Qed.

(** A sample after the window of a step changes its flag, through the median. *)
Theorem C127_later_samples_matter_refuted : exists (net : list (list (list F64)) -> list F64) f thr times (w : nat) (l l' : list F64) m m' t,
  samplewise net f /\ NoDup times /\ length l = length times /\ length l' = length times /\ 30 <= w <= length times /\ t + 30 <= length times /\
  torch_wet net (Z.of_nat w) thr ["a"%string] times 1 [[l]] = Ok m /\ torch_wet net (Z.of_nat w) thr ["a"%string] times 1 [[l']] = Ok m' /\
  firstn (t + 30) l = firstn (t + 30) l' /\ wet_at m t 0 /\ ~ wet_at m' t 0.
Proof.
  destruct (ok_check (torch_wet first_loss (Z.of_nat 31) (f_div #8 #10) ["a"%string] (minutes 35) 1 [[early]]) (fun m => get false (get [] m 2) 0)) as (m & E & H); [vm_compute; reflexivity|].
  destruct (ok_check (torch_wet first_loss (Z.of_nat 31) (f_div #8 #10) ["a"%string] (minutes 35) 1 [[upd 34 #1 early]]) (fun m => negb (get false (get [] m 2) 0))) as (m' & E' & H'); [vm_compute; reflexivity|].
  exists first_loss, (fun x => nget (get [] x 0) 0), (f_div #8 #10), (minutes 35), 31, early, (upd 34 #1 early), m, m', 2.
  split; [intros b; reflexivity|]. split; [apply FinFun.Injective_map_NoDup; [intros a b; apply Nat2Z.inj|apply seq_NoDup]|].
  split; [reflexivity|]. split; [reflexivity|]. split; [split; apply Nat.leb_le; reflexivity|]. split; [apply Nat.leb_le; reflexivity|].
  split; [exact E|]. split; [exact E'|]. split; [reflexivity|]. split; [exact H|]. unfold wet_at. apply negb_true_iff in H'. rewrite H'. discriminate.
Qed.
Print Assumptions C127_later_samples_matter_refuted.

(** ** C128 *)
(** If any link has three hours of data in both channels, the TensorFlow notebook
    gives a value for a step and link exactly if the three hours up to it are there. *)
Theorem C128_where_predicted : forall (net : list (list F64) -> F64) (p : raw_par F64) x ids T raw, NoDup ids -> rect 2 (levels T) (length ids) raw ->
  (exists j t, j < length ids /\ t < T /\ full (get [] (losses p x raw) j) t) ->
  exists m, tf_nb net p x ids T raw = Ok m /\ length m = T /\ forall t, t < T -> length (get [] m t) = length ids /\
    forall j, j < length ids ->
      ((forall z, n_isnan (net z) = false) -> full (get [] (losses p x raw) j) t -> n_isnan (nget (get [] m t) j) = false) /\
      (n_isnan (nget (get [] m t) j) = false -> full (get [] (losses p x raw) j) t).
Proof. exact (tf_total F64sem). Qed.
Print Assumptions C128_where_predicted.

(** If no link has, the whole call fails. *)
Theorem C128_fails_without_data : forall (net : list (list F64) -> F64) (p : raw_par F64) x ids T raw, NoDup ids -> rect 2 (levels T) (length ids) raw ->
  (forall j t, j < length ids -> t < T -> ~ full (get [] (losses p x raw) j) t) -> tf_nb net p x ids T raw = Err IndexError.
Proof. exact tf_none. Qed.
Print Assumptions C128_fails_without_data.

(** A value needs both channels measured, or in gaps short enough to be filled, in
    each of the 180 steps up to it. *)
Theorem C128_value_needs_window : forall (net : list (list F64) -> F64) (p : raw_par F64) x ids T raw, NoDup ids -> rect 2 (levels T) (length ids) raw ->
  forall m t j, tf_nb net p x ids T raw = Ok m -> t < T -> j < length ids -> n_isnan (nget (get [] m t) j) = false ->
  179 <= t /\ forall c k, c < 2 -> t - 179 <= k <= t ->
    let q := get ([], []) (get [] raw j) c in
    no_inf (fst q) -> no_inf (snd q) -> bridged (rp_fill_t p) (rp_fill_r p) x (rp_max_gap p) (fst q) (snd q) k.
Proof. exact (tf_raw F64sem). Qed.
Print Assumptions C128_value_needs_window.

(** link a is complete, of link b channel 2 misses one sample at the end *)
Definition level_pair (l : list F64) : list F64 * list F64 := (l, repeat #0 (length l)).
Definition predicted (r : res (list (list F64))) (j : nat) : list nat :=
  match r with Ok m => filter (fun t => negb (n_isnan (nget (get [] m t) j))) (seq 0 (length m)) | Err _ => [] end.
Example C128_case : let flat := level_pair (repeat #1 182) in let gap := level_pair (upd 181 #255 (repeat #1 182)) in
  let r := tf_nb (fun _ => #1) cnn_raw (clock 182) ["a"; "b"]%string 182 [[flat; flat]; [flat; gap]] in
  predicted r 0 = [179; 180; 181] /\ predicted r 1 = [179; 180].
Proof. vm_compute. auto. Qed.
Example C128_case_fails : let flat := level_pair (repeat #1 179) in
  tf_nb (fun _ => #1) cnn_raw (clock 179) ["a"%string] 179 [[flat; flat]] = Err IndexError.
Proof. vm_compute. reflexivity. Qed.
