(** * Proofs about the CNN notebooks: TensorFlow, offsets *)
From Coq Require Import List ZArith Bool String Lia Reals.
From Verif Require Import Base Num NumList Median TfInfer_model TfInfer_spec TfInfer_proofs TfInfer_proofs2 TorchInfer_model TorchInfer_spec
  KR_spec KR_proofs Workflow_model Workflow_spec Workflow_proofs Shift_spec Shift_proofs CnnNb_model CnnNb_spec CnnNb_proofs.
Import ListNotations.
Local Open Scope nat_scope.
Local Notation length := List.length.

Section P.
Context {O : numops} (S : numsem O).
Variables (net : list (list O) -> O) (p : raw_par O) (x : list O) (ids : list string) (T : nat) (raw : list (list (list O * list O))).
Hypotheses (NI : NoDup ids) (R : rect 2 (levels T) (length ids) raw).
Notation tl := (losses p x raw).

Lemma tl_len : length tl = length ids.
Proof using R. destruct R as (L & _). unfold losses. rewrite map_length. auto. Qed.
Lemma full_window j t : j < length ids -> t < T -> (full (get [] tl j) t <-> exists w, has_window (tf_dataset ids T tl) ["tl1"; "tl2"]%string 180 None j t w).
Proof using R.
  intros Hj Ht. pose proof tl_len. split.
  - intros (A & B). apply measured_window; auto; lia.
  - intros (w & W). apply window_measured in W; [|lia]. destruct W as (_ & A & B). split; auto.
Qed.
Lemma window_lt j t w : has_window (tf_dataset ids T tl) ["tl1"; "tl2"]%string 180 None j t w -> j < length ids /\ t < T.
Proof. intros (A & _ & B & _). auto. Qed.

Lemma tf_total : (exists j t, j < length ids /\ t < T /\ full (get [] tl j) t) ->
  exists m, tf_nb net p x ids T raw = Ok m /\ length m = T /\ forall t, t < T -> length (get [] m t) = length ids /\
    forall j, j < length ids ->
      ((forall z, n_isnan (net z) = false) -> full (get [] tl j) t -> n_isnan (nget (get [] m t) j) = false) /\
      (n_isnan (nget (get [] m t) j) = false -> full (get [] tl j) t).
Proof using S NI R.
  intros (j0 & t0 & Hj0 & Ht0 & F0). unfold tf_nb.
  destruct (cnn_correct net (tf_dataset ids T tl) ["tl1"; "tl2"]%string 180 None) as (X & ps & m & E & _ & _ & Lm & P); auto; try lia.
  { apply has_tl. } { discriminate. }
  { exists j0, t0. apply full_window; auto. }
  cbn [tf_dataset ds_time ds_ids] in *. exists m. split; auto. split; auto. intros t Ht. destruct (P t Ht) as (Lr & Q). split; auto.
  intros j Hj. destruct (Q j Hj) as (Q1 & Q2). split.
  - intros HN F. apply full_window in F as (w & W); auto. destruct (Q1 w W) as (z & _ & ->). apply HN.
  - intros N. assert (D : ~ (forall w, ~ has_window (tf_dataset ids T tl) ["tl1"; "tl2"]%string 180 None j t w)).
    { intros H. rewrite (Q2 H), (isnan_nan S) in N. discriminate. }
    assert (H1 : 179 <= t). { destruct (Nat.le_gt_cases 179 t); auto. exfalso. apply D. intros w W. apply window_measured in W; [|rewrite tl_len; auto]. lia. }
    split; auto. intros c k Hc Hk.
    destruct (n_isnan (nget (get [] (get [] tl j) c) k)) eqn:N1; [|destruct (n_isinf (nget (get [] (get [] tl j) c) k)) eqn:N2; auto];
    exfalso; apply D; intros w W; apply window_measured in W; try (rewrite tl_len; auto); destruct W as (_ & _ & W); destruct (W c k Hc Hk); congruence.
Qed.
Lemma tf_none : (forall j t, j < length ids -> t < T -> ~ full (get [] tl j) t) -> tf_nb net p x ids T raw = Err IndexError.
Proof using NI R.
  intros H. unfold tf_nb. apply cnn_no_samples; auto; try lia; [apply has_tl|discriminate|].
  intros j t w W. pose proof (window_lt j t w W) as (Hj & Ht). apply (H j t Hj Ht). apply full_window; eauto.
Qed.
Lemma tf_raw m t j : tf_nb net p x ids T raw = Ok m -> t < T -> j < length ids -> n_isnan (nget (get [] m t) j) = false ->
  179 <= t /\ forall c k, c < 2 -> t - 179 <= k <= t ->
    let q := get ([], []) (get [] raw j) c in
    no_inf (fst q) -> no_inf (snd q) -> bridged (rp_fill_t p) (rp_fill_r p) x (rp_max_gap p) (fst q) (snd q) k.
Proof using S NI R.
  intros E Ht Hj N.
  assert (D : ~ forall j t, j < length ids -> t < T -> ~ full (get [] tl j) t) by (intros H; rewrite (tf_none H) in E; discriminate).
  assert (F : full (get [] tl j) t).
  { assert (NN : ~ ~ full (get [] tl j) t).
    { intros NF. apply D. intros j' t' Hj' Ht' F'. destruct tf_total as (m' & E' & _ & P); [exists j', t'; auto|].
      rewrite E in E'. injection E' as <-. destruct (P t Ht) as (_ & Q). apply NF, (Q j Hj), N. }
    assert (H1 : 179 <= t) by (destruct (Nat.le_gt_cases 179 t); auto; exfalso; apply NN; intros (A & _); lia).
    split; auto. intros c k Hc Hk.
    destruct (n_isnan (nget (get [] (get [] tl j) c) k)) eqn:N1; [|destruct (n_isinf (nget (get [] (get [] tl j) c) k)) eqn:N2; auto];
    exfalso; apply NN; intros (_ & A); destruct (A c k Hc Hk); congruence. }
  destruct F as (H1 & F). split; auto. intros c k Hc Hk q I1 I2. destruct (F c k Hc Hk) as (F1 & _).
  rewrite (losses_get p x 2 T (length ids)) in F1 by auto. fold q in F1.
  pose proof (levels_get 2 T (length ids) raw j c R Hj Hc) as (L1 & L2). fold q in L1, L2.
  apply (valid_bridged S); auto; try lia. intros s Hs. split; [apply I1; auto|apply I2; lia].
Qed.
End P.

(** ** offsets in exact arithmetic *)
Lemma normalise_off c (l : list XR) : normalise (off c l) = normalise l.
Proof.
  unfold normalise. rewrite off_sh, map_map, not_nan_shift. apply map_ext_in. intros v Hv.
  destruct (n_isnan v) eqn:N.
  - destruct v; try discriminate N. reflexivity.
  - rewrite median_shift; [apply sh_sub|]. intros E. assert (I : In v (not_nan l)) by (apply filter_In; split; auto; rewrite N; auto).
    rewrite E in I. destruct I.
Qed.
Lemma torch_off c net w thr ids times C (tl tl' : list (list (list XR))) : offset_of c tl tl' ->
  torch_wet net w thr ids times C tl' = torch_wet net w thr ids times C tl.
Proof.
  intros (L & H). unfold torch_wet. replace (map (map normalise) tl') with (map (map normalise) tl); auto.
  apply (get_ext []); rewrite !map_length; auto. intros i Hi. rewrite !(get_map _ []) by lia. destruct (H i Hi) as (L1 & H1).
  apply (get_ext []); rewrite !map_length; auto. intros k Hk. rewrite !(get_map _ []) by lia. rewrite H1 by auto. symmetry. apply normalise_off.
Qed.
