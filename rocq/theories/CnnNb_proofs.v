(** * Proofs about the CNN notebooks *)
From Coq Require Import List ZArith Bool String Lia Reals.
From Verif Require Import Base Num NumList Median TfInfer_model TfInfer_spec TfInfer_proofs TorchInfer_model TorchInfer_spec TorchInfer_proofs TorchInfer_proofs2
  KR_spec KR_proofs Workflow_model Workflow_spec Workflow_proofs Shift_spec Shift_proofs CnnNb_model CnnNb_spec.
Import ListNotations.
Local Open Scope nat_scope.
Local Notation length := List.length.

Section P.
Context {O : numops} (S : numsem O).

Lemma normalise_length (l : list O) : length (normalise l) = length l.
Proof. apply map_length. Qed.
Lemma normalise_get (l : list O) k : k < length l -> nget (normalise l) k = n_sub (nget l k) (median (not_nan l)).
Proof. intros H. unfold normalise, nget. rewrite (get_map _ n_nan) by auto. reflexivity. Qed.
Lemma normal (l : list O) : normal_level l (median (not_nan l)).
Proof using S.
  exists (not_nan l). split; [|split; [reflexivity|]].
  - intros y H. apply filter_In in H. apply negb_true_iff, H.
  - apply (median_is_median S). intros y H. apply filter_In in H. apply negb_true_iff, H.
Qed.

Section Torch.
Variables (net : list (list (list O)) -> list O) (f : list (list O) -> O) (HN : samplewise net f) (thr : O).
Variables (ids : list string) (times : list Z) (C : nat).
Hypotheses (NI : NoDup ids) (NT : NoDup times) (NE : ids <> []).
Notation T := (length times).

Lemma cube_of_ok (tl : list (list (list O))) : length tl = length ids -> cube_ok (cube_of ids times C tl).
Proof using NI NT.
  intros H. unfold cube_ok, cube_of. cbn [c_ids c_times c_values]. repeat split; auto; [rewrite map_length; auto|].
  intros i Hi. rewrite (get_map _ []) by lia. rewrite map_length, seq_length. reflexivity.
Qed.

Lemma input_window (tl : list (list (list O))) i s w x : rect C (series T) (length ids) tl -> i < length ids -> s + w <= T ->
  input_at (cube_of ids times C (map (map normalise) tl)) i s w x -> relative_window (get [] tl i) s w x.
Proof using S.
  intros (L & R) Hi Hs (A & B). cbn [c_channels cube_of] in *.
  assert (IN : In (get [] tl i) tl) by (apply get_In; lia).
  destruct (R _ IN) as (LC & LS). split; [lia|]. intros c Hc. rewrite LC in Hc. destruct (B c Hc) as (B1 & B2). split; auto.
  assert (INc : In (get [] (get [] tl i) c) (get [] tl i)) by (apply get_In; lia). specialize (LS _ INc). red in LS.
  exists (median (not_nan (get [] (get [] tl i) c))). split; [apply normal|]. intros k Hk. rewrite (B2 k Hk). cbn [c_values cube_of].
  rewrite (get_map _ []) by (rewrite map_length; lia). rewrite (get_map _ []) by lia.
  rewrite get_map_seq by lia. unfold nget at 1. rewrite get_map_seq by lia. rewrite (get_map _ []) by lia. apply normalise_get. lia.
Qed.

Lemma torch_ok (tl : list (list (list O))) w : rect C (series T) (length ids) tl -> 30 <= w <= T ->
  exists m, torch_wet net (Z.of_nat w) thr ids times C tl = Ok m /\ length m = T /\
  forall t, t < T -> length (get [] m t) = length ids /\ forall i, i < length ids ->
    (w <= t + 30 <= T -> exists x, relative_window (get [] tl i) (t + 30 - w) w x /\ get false (get [] m t) i = n_ltb thr (f x)) /\
    (t + 30 < w \/ T < t + 30 -> get false (get [] m t) i = false).
Proof using S HN NI NT NE.
  intros R Hw. pose proof R as (L & _).
  destruct (cnn_wd_ok net f (cube_of ids times C (map (map normalise) tl)) w 32 60) as (m & E & Lm & P); auto; try lia.
  { apply cube_of_ok. rewrite map_length. auto. }
  { cbn [cube_of c_times]. lia. }
  { change (Z.to_nat (60 / 2)) with 30. lia. }
  cbn [cube_of c_times c_ids] in *. change (Z.to_nat (60 / 2)) with 30 in P.
  exists (map (map (fun v => n_ltb thr v)) m). unfold torch_wet. rewrite E. cbn [bind]. split; auto. split; [rewrite map_length; auto|].
  intros t Ht. rewrite (get_map _ []) by lia. destruct (P t Ht) as (Lr & Q). rewrite map_length. split; auto. intros i Hi.
  rewrite (get_map _ n_nan) by lia. destruct (Q i Hi) as (Q1 & Q2). unfold nget in *. split.
  - intros H. destruct (Q1 H) as (x & I & V). exists x. split; [|rewrite V; auto].
    apply input_window; auto. lia.
  - intros H. rewrite (Q2 H). apply (ltb_nan_r S), (isnan_nan S).
Qed.

(** the input of a step, computed from the link's own losses *)
Definition own_input (chs : list (list O)) (s w : nat) : list (list O) := map (fun c => slice s (s + w) (normalise (get [] chs c))) (seq 0 C).
Lemma input_own (tl : list (list (list O))) i s w x : rect C (series T) (length ids) tl -> i < length ids -> s + w <= T ->
  input_at (cube_of ids times C (map (map normalise) tl)) i s w x -> x = own_input (get [] tl i) s w.
Proof.
  intros (L & R) Hi Hs (A & B). cbn [c_channels cube_of] in *.
  assert (IN : In (get [] tl i) tl) by (apply get_In; lia). destruct (R _ IN) as (LC & LS).
  apply (get_ext []); [unfold own_input; rewrite map_length, seq_length; auto|].
  intros c Hc. rewrite A in Hc. destruct (B c Hc) as (B1 & B2). unfold own_input. rewrite get_map_seq by auto.
  assert (INc : In (get [] (get [] tl i) c) (get [] tl i)) by (apply get_In; lia). specialize (LS _ INc). red in LS.
  apply (get_ext n_nan); [rewrite slice_length by (rewrite normalise_length; lia); lia|]. intros k Hk. rewrite B1 in Hk.
  rewrite get_slice by lia. specialize (B2 k Hk). unfold nget in B2. rewrite B2. cbn [c_values cube_of].
  rewrite (get_map _ []) by (rewrite map_length; lia). rewrite (get_map _ []) by lia.
  rewrite !get_map_seq by lia. rewrite (get_map _ []) by lia. reflexivity.
Qed.

Lemma torch_own (tl : list (list (list O))) w m : rect C (series T) (length ids) tl -> 30 <= w <= T ->
  torch_wet net (Z.of_nat w) thr ids times C tl = Ok m ->
  forall t i, t < T -> i < length ids -> get false (get [] m t) i = ((w <=? t + 30) && (t + 30 <=? T) && n_ltb thr (f (own_input (get [] tl i) (t + 30 - w) w)))%bool.
Proof using S HN NI NT NE.
  intros R Hw E0. pose proof R as (L & _).
  destruct (cnn_wd_ok net f (cube_of ids times C (map (map normalise) tl)) w 32 60) as (m' & E & Lm & P); auto; try lia.
  { apply cube_of_ok. rewrite map_length. auto. }
  { cbn [cube_of c_times]. lia. }
  { change (Z.to_nat (60 / 2)) with 30. lia. }
  cbn [cube_of c_times c_ids] in *. change (Z.to_nat (60 / 2)) with 30 in P.
  unfold torch_wet in E0. rewrite E in E0. cbn [bind] in E0. injection E0 as <-. intros t i Ht Hi.
  rewrite (get_map _ []) by lia. destruct (P t Ht) as (Lr & Q). rewrite (get_map _ n_nan) by lia. destruct (Q i Hi) as (Q1 & Q2). unfold nget in *.
  destruct (Nat.leb_spec w (t + 30)); [destruct (Nat.leb_spec (t + 30) T)|]; cbn [andb].
  - destruct Q1 as (x & I & V); [lia|]. rewrite V. f_equal. f_equal. apply (input_own tl i); auto. lia.
  - rewrite Q2 by lia. apply (ltb_nan_r S), (isnan_nan S).
  - rewrite Q2 by lia. apply (ltb_nan_r S), (isnan_nan S).
Qed.

Lemma torch_needs (tl : list (list (list O))) w m t i : spreads_nan f -> rect C (series T) (length ids) tl -> 30 <= w <= T ->
  torch_wet net (Z.of_nat w) thr ids times C tl = Ok m -> t < T -> i < length ids -> wet_at m t i ->
  w <= t + 30 <= T /\ forall c k, c < C -> t + 30 - w <= k < t + 30 -> n_isnan (nget (get [] (get [] tl i) c) k) = false.
Proof using S HN NI NT NE.
  intros SP R Hw E Ht Hi W. red in W. rewrite (torch_own tl w m R Hw E t i Ht Hi) in W.
  apply andb_true_iff in W as (W & V). apply andb_true_iff in W as (W1 & W2). apply Nat.leb_le in W1, W2. split; [lia|].
  intros c k Hc Hk. destruct (n_isnan (nget (get [] (get [] tl i) c) k)) eqn:N; auto. exfalso.
  destruct R as (L & R). assert (IN : In (get [] tl i) tl) by (apply get_In; lia). destruct (R _ IN) as (LC & LS).
  assert (INc : In (get [] (get [] tl i) c) (get [] tl i)) by (apply get_In; lia). specialize (LS _ INc). red in LS.
  assert (X : n_isnan (f (own_input (get [] tl i) (t + 30 - w) w)) = true).
  { apply (SP _ c (k - (t + 30 - w))); unfold own_input.
    - rewrite map_length, seq_length; auto.
    - rewrite get_map_seq by auto. rewrite slice_length by (rewrite normalise_length; lia). lia.
    - rewrite get_map_seq by auto. unfold nget. rewrite get_slice by lia. replace (t + 30 - w + (k - (t + 30 - w))) with k by lia.
      fold (nget (normalise (get [] (get [] tl i) c)) k). rewrite normalise_get by lia. apply (sub_nan_l S). auto. }
  rewrite (ltb_nan_r S _ _ X) in V. discriminate.
Qed.
End Torch.

(** the flags of a link depend on its own losses only, whatever other links are there *)
Lemma torch_independent (net : list (list (list O)) -> list O) f thr times C w ids tl ids' tl' m m' i i' t : samplewise net f -> NoDup times ->
  NoDup ids -> NoDup ids' -> rect C (series (length times)) (length ids) tl -> rect C (series (length times)) (length ids') tl' -> 30 <= w <= length times ->
  torch_wet net (Z.of_nat w) thr ids times C tl = Ok m -> torch_wet net (Z.of_nat w) thr ids' times C tl' = Ok m' ->
  i < length ids -> i' < length ids' -> t < length times -> get [] tl i = get [] tl' i' -> get false (get [] m t) i = get false (get [] m' t) i'.
Proof using S.
  intros HN NT NI NI' R R' Hw E E' Hi Hi' Ht EQ.
  rewrite (torch_own net f HN thr ids times C NI NT) with (tl := tl) (w := w); auto; [|destruct ids; simpl in Hi; [lia|discriminate]].
  rewrite (torch_own net f HN thr ids' times C NI' NT) with (tl := tl') (w := w); auto; [|destruct ids'; simpl in Hi'; [lia|discriminate]].
  rewrite EQ. reflexivity.
Qed.

(** ** from raw levels *)
Lemma losses_rect (p : raw_par O) x C T n (raw : list (list (list O * list O))) : rect C (levels T) n raw -> rect C (series T) n (losses p x raw).
Proof.
  intros (L & R). split; [unfold losses; rewrite map_length; auto|]. intros chs H. apply in_map_iff in H as (r & <- & H).
  destruct (R _ H) as (A & B). rewrite map_length. split; auto. intros s Hs. apply in_map_iff in Hs as (q & <- & Hq).
  destruct (B _ Hq) as (Q1 & Q2). red. rewrite loss_length by lia. auto.
Qed.
Lemma losses_get (p : raw_par O) x C T n (raw : list (list (list O * list O))) i c : rect C (levels T) n raw -> i < n -> c < C ->
  get [] (get [] (losses p x raw) i) c = prepared p x (fst (get ([], []) (get [] raw i) c)) (snd (get ([], []) (get [] raw i) c)).
Proof.
  intros (L & R) Hi Hc. unfold losses. rewrite (get_map _ []) by lia. rewrite (get_map _ ([], [])); auto.
  destruct (R (get [] raw i)) as (A & _); [apply get_In; lia|]. lia.
Qed.
Lemma levels_get C T n (raw : list (list (list O * list O))) i c : rect C (@levels O T) n raw -> i < n -> c < C -> levels T (get ([], []) (get [] raw i) c).
Proof.
  intros (L & R) Hi Hc. destruct (R (get [] raw i)) as (A & B); [apply get_In; lia|]. apply B, get_In. lia.
Qed.

Definition no_inf (l : list O) : Prop := forall t, t < length l -> n_isinf (get n_nan l t) = false.
Lemma torch_raw (net : list (list (list O)) -> list O) f thr (p : raw_par O) x ids times C raw w m t i : samplewise net f -> spreads_nan f -> NoDup ids -> NoDup times ->
  rect C (levels (length times)) (length ids) raw -> 30 <= w <= length times ->
  torch_nb net (Z.of_nat w) thr p x ids times C raw = Ok m -> t < length times -> i < length ids -> wet_at m t i ->
  w <= t + 30 <= length times /\ forall c k, c < C -> t + 30 - w <= k < t + 30 ->
    let q := get ([], []) (get [] raw i) c in
    no_inf (fst q) -> no_inf (snd q) -> bridged (rp_fill_t p) (rp_fill_r p) x (rp_max_gap p) (fst q) (snd q) k.
Proof using S.
  intros HN SP NI NT R Hw E Ht Hi W. unfold torch_nb in E.
  destruct (torch_needs net f HN thr ids times C NI NT) with (tl := losses p x raw) (w := w) (m := m) (t := t) (i := i) as (A & B); auto.
  { destruct ids; simpl in Hi; [lia|discriminate]. }
  { apply losses_rect; auto. }
  split; auto. intros c k Hc Hk q I1 I2. specialize (B c k Hc Hk). rewrite (losses_get p x C (length times) (length ids)) in B by auto. fold q in B.
  pose proof (levels_get C (length times) (length ids) raw i c R Hi Hc) as (L1 & L2). fold q in L1, L2.
  apply (valid_bridged S); auto; try lia. intros s Hs. split; [apply I1; auto|apply I2; lia].
Qed.

(** ** TensorFlow *)
Lemma value_tl (tl : list (list (list O))) ids n k i t x : k < 2 -> i < length tl ->
  value_at (tf_dataset ids n tl) (get EmptyString ["tl1"; "tl2"]%string k) i t x -> x = nget (get [] (get [] tl i) k) t.
Proof.
  intros Hk Hi (v & Hv & E & F & ->). cbn [tf_dataset ds_vars length] in *.
  destruct k as [|[|k]]; [| |lia]; destruct v as [|[|v]]; try (simpl in Hv; lia); try (cbn in E; discriminate E).
  - change (nget (get [] (map (fun chs => get [] chs 0) tl) i) t = nget (get [] (get [] tl i) 0) t). rewrite (get_map _ []) by auto. reflexivity.
  - change (nget (get [] (map (fun chs => get [] chs 1) tl) i) t = nget (get [] (get [] tl i) 1) t). rewrite (get_map _ []) by auto. reflexivity.
Qed.
Lemma has_tl (tl : list (list (list O))) ids n : has_vars (tf_dataset ids n tl) ["tl1"; "tl2"]%string.
Proof. intros v [<-|[<-|[]]]; simpl; auto. Qed.
Lemma window_measured (tl : list (list (list O))) ids n j t w : j < length tl -> has_window (tf_dataset ids n tl) ["tl1"; "tl2"]%string 180 None j t w ->
  t < n /\ 179 <= t /\ forall c k, c < 2 -> t - 179 <= k <= t ->
    n_isnan (nget (get [] (get [] tl j) c) k) = false /\ n_isinf (nget (get [] (get [] tl j) c) k) = false.
Proof.
  intros Hj (_ & _ & A & B & C & D). cbn [tf_dataset ds_time] in A. split; auto. split; [lia|]. intros c k Hc Hk.
  destruct (D (k - (t - 179))) as (D1 & D2); [lia|]. destruct (D2 c) as (V & N1 & N2); [exact Hc|].
  apply value_tl in V; auto. replace (t + 1 - 180 + (k - (t - 179))) with k in V by lia. rewrite <- V. auto.
Qed.
Lemma measured_window (tl : list (list (list O))) ids n j t : length tl = length ids -> j < length tl -> t < n -> 179 <= t ->
  (forall c k, c < 2 -> t - 179 <= k <= t -> n_isnan (nget (get [] (get [] tl j) c) k) = false /\ n_isinf (nget (get [] (get [] tl j) c) k) = false) ->
  exists w, has_window (tf_dataset ids n tl) ["tl1"; "tl2"]%string 180 None j t w.
Proof.
  intros HL Hj Ht H1 M.
  exists (map (fun s => map (fun c => nget (get [] (get [] tl j) c) (t + 1 - 180 + s)) (seq 0 2)) (seq 0 180)).
  split; [cbn; lia|]. split; [apply get_In; cbn; lia|]. split; [cbn; lia|]. split; [lia|]. split; [rewrite map_length, seq_length; auto|].
  intros s Hs. rewrite get_map_seq by auto. split; [reflexivity|]. intros k Hk. cbn [length] in Hk. unfold nget at 1 3 5. rewrite !get_map_seq by auto.
  split; [|apply M; auto; lia]. exists k. cbn [tf_dataset ds_vars length]. split; [auto|].
  destruct k as [|[|k]]; [| |lia].
  - split; [reflexivity|]. split; [intros k' H; lia|]. 
    change (nget (get [] (get [] tl j) 0) (t + 1 - 180 + s) = nget (get [] (map (fun chs => get [] chs 0) tl) j) (t + 1 - 180 + s)). rewrite (get_map _ []) by auto. reflexivity.
  - split; [reflexivity|]. split; [intros k' H; destruct k'; [cbn; discriminate|lia]|]. 
    change (nget (get [] (get [] tl j) 1) (t + 1 - 180 + s) = nget (get [] (map (fun chs => get [] chs 1) tl) j) (t + 1 - 180 + s)). rewrite (get_map _ []) by auto. reflexivity.
Qed.
End P.
