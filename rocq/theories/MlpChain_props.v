(** * Property C125: MLP classification of the wet-dry notebook *)
From Coq Require Import List ZArith Bool String Lia Reals.
From Verif Require Import Base Num NumF64 NumList Mlp_model Mlp_spec Mlp_proofs Mlp_props Baseline_model Baseline_spec Chain_spec Shift_spec MlpChain_model MlpChain_spec MlpChain_proofs MlpChain_proofs2.
Import ListNotations.
Local Open Scope nat_scope.
Local Notation length := List.length.

(** The chain gives flags that are 0 or 1, never missing, and baselines that follow
    the levels wherever the flag is not wet. *)
Theorem C125_total : forall (predict : string -> list F64 -> res (F64 * F64)) (bn : bool) sel n (x1 x2 : list F64),
  offline sel \/ online sel -> total_model (predict sel) -> length x1 = length x2 ->
  (offline sel -> (if bn then 361 else 40) <= length x1) -> (online sel -> 41 <= length x1) -> 1 <= n ->
  exists wet b1 b2 : list F64, mlp_baselines predict bn sel n x1 x2 = Ok (wet, (b1, b2)) /\ length wet = length x1 /\ length b1 = length x1 /\ length b2 = length x1 /\
    (forall t, t < length x1 -> get n_nan wet t = n_ofZ 0 \/ get n_nan wet t = n_ofZ 1) /\
    forall t, t < length x1 -> ~ flagged_wet wet t -> get n_nan b1 t = get n_nan x1 t /\ get n_nan b2 t = get n_nan x2 t.
Proof. exact (chain_total F64sem). Qed.
Print Assumptions C125_total.

(** The flag is that of the larger of the two predicted values; a NaN counts as
    the largest, the first of two NaN and of two equal values wins. *)
Theorem C125_flag_rule : forall (predict : string -> list F64 -> res (F64 * F64)) bn sel (x1 x2 : list F64) rows (wet : list F64),
  mlp_wet_dry predict bn x1 x2 sel = Ok rows -> mlp_flags predict bn sel x1 x2 = Ok wet ->
  length wet = length rows /\ forall t, t < length rows -> let p := get (n_nan, n_nan) rows t in
    (flagged_wet wet t <-> n_isnan (fst p) = false /\ (n_isnan (snd p) = true \/ n_ltb (fst p) (snd p) = true)).
Proof. exact (flag_rule F64sem). Qed.
Print Assumptions C125_flag_rule.
Example C125_case_rule : let x : list F64 := repeat #7 42 in
  let run := fun p => match mlp_flags (fun _ _ => Ok p) true "rg_online" x x with Ok wet => f_same_list wet (repeat #0 40 ++ [#1; #1]) | _ => false end in
  run (#0, #1) && run (#1, fNaN) && negb (run (#1, #1)) && negb (run (fNaN, fNaN)) = true.
Proof. vm_compute. reflexivity. Qed.

(** With the offline models a wet flag needs both channels measured without gap
    from 20 steps before to 19 after, and two hours of data around each of them. *)
Theorem C125_wet_needs_window : forall (predict : string -> list F64 -> res (F64 * F64)) bn sel (x1 x2 wet : list F64) t,
  offline sel -> mlp_flags predict bn sel x1 x2 = Ok wet -> t < length x1 -> flagged_wet wet t ->
  20 <= t /\ measured x1 (t - 20) (t + 19) /\ measured x2 (t - 20) (t + 19) /\ enough_around x1 (t - 20) (t + 19) /\ enough_around x2 (t - 20) (t + 19).
Proof. exact (wet_needs_offline F64sem). Qed.
Print Assumptions C125_wet_needs_window.

(** With the online models it needs the step and the 40 steps before. *)
Theorem C125_wet_needs_window_online : forall (predict : string -> list F64 -> res (F64 * F64)) bn sel (x1 x2 wet : list F64) t,
  online sel -> mlp_flags predict bn sel x1 x2 = Ok wet -> t < length x1 -> flagged_wet wet t ->
  40 <= t /\ measured x1 (t - 40) t /\ measured x2 (t - 40) t.
Proof. exact (wet_needs_online F64sem). Qed.
Print Assumptions C125_wet_needs_window_online.

(** a model that finds everything wet: one missing sample makes 41 dry steps *)
Definition always_wet (sel : string) (w : list F64) : res (F64 * F64) := Ok (#0, #1).
Example C125_case_gap : let x : list F64 := repeat #7 100 in
  match mlp_flags always_wet true "rg_online" (upd 50 fNaN x) x with
  | Ok wet => f_same_list wet (repeat #0 40 ++ repeat #1 10 ++ repeat #0 41 ++ repeat #1 9) | _ => false end = true.
Proof. vm_compute. reflexivity. Qed.

(** With the online models flags and baselines up to a step are final: they depend
    only on the levels up to that step, also when the record is continued. *)
Theorem C125_online_is_causal : forall (predict : string -> list F64 -> res (F64 * F64)) bn sel n (x1 x2 y1 y2 wet b1 b2 wet' b1' b2' : list F64) k, online sel ->
  mlp_baselines predict bn sel n x1 x2 = Ok (wet, (b1, b2)) -> mlp_baselines predict bn sel n y1 y2 = Ok (wet', (b1', b2')) ->
  k < length x1 -> k < length y1 -> same_until n_nan k x1 y1 -> same_until n_nan k x2 y2 ->
  same_until n_nan k wet wet' /\ same_until n_nan k b1 b1' /\ same_until n_nan k b2 b2'.
Proof. exact (online_chain_causal F64sem). Qed.
Print Assumptions C125_online_is_causal.

(** Not so with the offline models: a later level changes flag and baseline. *)
Definition last_value (sel : string) (w : list F64) : res (F64 * F64) := Ok (#0, nget w 39).
Definition one_peak : list F64 := upd 41 #3 (repeat #0 130).
Theorem C125_offline_not_causal_refuted : exists (predict : string -> list F64 -> res (F64 * F64)) (x1 y1 x2 : list F64) wet b1 b2 wet' b1' b2' k,
  mlp_baselines predict false "rad" 1 x1 x2 = Ok (wet, (b1, b2)) /\ mlp_baselines predict false "rad" 1 y1 x2 = Ok (wet', (b1', b2')) /\
  k < length x1 /\ length x1 = length y1 /\ same_until n_nan k x1 y1 /\
  n_eqb (get n_nan wet k) (n_ofZ 0) = true /\ n_eqb (get n_nan wet' k) (n_ofZ 1) = true /\
  n_eqb (get n_nan b1 k) (n_ofZ 3) = true /\ n_eqb (get n_nan b1' k) (n_ofZ 0) = true.
Proof.
  destruct (ok_check (mlp_baselines last_value false "rad" 1 one_peak (repeat #0 130))
    (fun r => n_eqb (get n_nan (fst r) 41) (n_ofZ 0) && n_eqb (get n_nan (fst (snd r)) 41) (n_ofZ 3))) as ((wet & b1 & b2) & E & H); [vm_compute; reflexivity|].
  destruct (ok_check (mlp_baselines last_value false "rad" 1 (upd 60 #50 one_peak) (repeat #0 130))
    (fun r => n_eqb (get n_nan (fst r) 41) (n_ofZ 1) && n_eqb (get n_nan (fst (snd r)) 41) (n_ofZ 0))) as ((wet' & b1' & b2') & E' & H'); [vm_compute; reflexivity|].
  apply andb_true_iff in H, H'. cbn [fst snd] in H, H'. destruct H as [H1 H2], H' as [H1' H2'].
  exists last_value, one_peak, (upd 60 #50 one_peak), (repeat #0 130), wet, b1, b2, wet', b1', b2', 41.
  split; [exact E|]. split; [exact E'|]. split; [vm_compute; lia|]. split; [rewrite upd_length; reflexivity|]. split.
  - intros j Hj. rewrite get_upd_neq by lia. reflexivity.
  - auto.
Qed.
Print Assumptions C125_offline_not_causal_refuted.

(** A constant offset of each channel leaves the flags unchanged and shifts the
    baselines (exact arithmetic). *)
Theorem C125_offset_exact : forall (predict : string -> list XR -> res (XR * XR)) bn sel n (x1 x2 : list XR) c d,
  mlp_baselines predict bn sel n (off c x1) (off d x2) =
  (do r <- mlp_baselines predict bn sel n x1 x2; Ok (fst r, (off c (fst (snd r)), off d (snd (snd r))))).
Proof. exact chain_offset. Qed.
Print Assumptions C125_offset_exact.

(** The flag is the comparison of the two outputs: wet exactly when the second one
    is larger.  Rows without prediction are dry; a row of which only the second
    output is missing would be wet. *)
Theorem C125_flag_is_larger_output : forall (predict : string -> list F64 -> res (F64 * F64)) bn sel (x1 x2 wet : list F64),
  mlp_flags predict bn sel x1 x2 = Ok wet -> exists rows, mlp_wet_dry predict bn x1 x2 sel = Ok rows /\ length wet = length rows /\
  forall t, t < length rows -> let '(dry_p, wet_p) := get (n_nan, n_nan) rows t in
    get n_nan wet t = if negb (n_isnan dry_p) && (n_isnan wet_p || n_ltb dry_p wet_p) then n_ofZ 1 else n_ofZ 0.
Proof.
  intros predict bn sel x1 x2 wet H. unfold mlp_flags in H.
  destruct (mlp_wet_dry predict bn x1 x2 sel) as [rows|e]; cbn [bind] in H; [|discriminate]. injection H as <-.
  exists rows. split; [reflexivity|]. split; [apply map_length|]. intros t Ht.
  destruct (get (n_nan, n_nan) rows t) as [a b] eqn:E. rewrite (get_map _ (n_nan, n_nan)) by exact Ht. rewrite E.
  unfold np_argmax2. cbn [fst snd]. destruct (n_isnan a), (n_isnan b), (n_ltb a b); reflexivity.
Qed.
Print Assumptions C125_flag_is_larger_output.

Definition half_missing (sel : string) (w : list F64) : res (F64 * F64) := Ok (#1, fNaN).
Definition larger_first (sel : string) (w : list F64) : res (F64 * F64) := Ok (#1, #1).
Example C125_case_flag : let x : list F64 := repeat #7 50 in
  match mlp_flags half_missing true "rg_online" x x, mlp_flags larger_first true "rg_online" x x with
  | Ok u, Ok v => f_same_list u (repeat #0 40 ++ repeat #1 10) && f_same_list v (repeat #0 50) | _, _ => false end = true.
Proof. vm_compute. reflexivity. Qed.
