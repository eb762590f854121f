(** * Proofs about the whole PyTorch inference *)
From Coq Require Import List ZArith Bool String Lia Arith.
From Verif Require Import Base Num NumList NpOps NearbyWetdry_model TfInfer_model TfInfer_spec TfInfer_proofs TorchInfer_model TorchInfer_spec TorchInfer_proofs.
Import ListNotations.
Local Open Scope nat_scope.
Local Notation length := List.length.

Lemma combine_map2 {A B C} (f : A -> B) (g : A -> C) l : combine (map f l) (map g l) = map (fun a => (f a, g a)) l.
Proof. induction l; cbn; congruence. Qed.
Lemma combine_seq {A B} (da : A) (db : B) (a : list A) (b : list B) : length a = length b -> combine a b = map (fun i => (get da a i, get db b i)) (seq 0 (length a)).
Proof.
  revert b. induction a as [|x a IH]; intros [|y b] H; try discriminate; auto. cbn [combine length seq map]. f_equal. rewrite IH by (cbn in H; lia). rewrite <- seq_shift, map_map. reflexivity.
Qed.
Lemma combine_app2 {A B} (a a' : list A) (b b' : list B) : length a = length b -> combine (a ++ a') (b ++ b') = combine a b ++ combine a' b'.
Proof. revert b. induction a as [|x a IH]; intros [|y b] H; try discriminate; auto. cbn. f_equal. apply IH. cbn in H. lia. Qed.
Lemma combine_concat {I A B} (F : I -> list A) (G : I -> list B) l : (forall i, length (F i) = length (G i)) -> combine (List.concat (map F l)) (List.concat (map G l)) = List.concat (map (fun i => combine (F i) (G i)) l).
Proof. intros H. induction l as [|i l IH]; auto. cbn [map List.concat]. rewrite combine_app2 by auto. congruence. Qed.
Lemma repeat_map {A} (c : A) n s : repeat c n = map (fun _ => c) (seq s n).
Proof. revert s. induction n as [|n IH]; intros s; cbn; auto. f_equal. apply IH. Qed.

Section P.
Context {O : numops}.
Notation cell m t j := (nget (get ([] : list O) m t) j).
Notation VS d i := (get ([] : list (list O)) (c_values d) i).

Lemma batchify_ok (d : cube O) (w : nat) (ref : Z) : cube_ok d -> c_ids d <> [] -> 0 < w -> (2 <= ref)%Z ->
  let K := length (c_times d) + 1 - w in let h := Z.to_nat (Z.quot ref 2) in
  batchify_windows d (Z.of_nat w) ref = Ok (
    List.concat (map (fun i => map (fun _ => get EmptyString (c_ids d) i) (seq 0 K)) (seq 0 (length (c_ids d)))),
    List.concat (map (fun i => map (fun k => get 0%Z (c_times d) (target w h k)) (seq 0 K)) (seq 0 (length (c_ids d)))),
    List.concat (map (fun i => map (fun k => slice k (k + w) (VS d i)) (seq 0 K)) (seq 0 (length (c_ids d))))).
Proof.
  intros (ND & NT & LV & LR) NE Hw HR. cbv zeta. unfold batchify_windows.
  rewrite (combine_seq EmptyString ([] : list (list O))) by lia.
  set (L := length (c_ids d)). assert (HL : L <> 0) by (unfold L; destruct (c_ids d); [congruence|discriminate]).
  set (K := length (c_times d) + 1 - w). set (h := Z.to_nat (Z.quot ref 2)).
  assert (E : mapM (fun p : string * list (list O) => do wt <- rolling_window (snd p) (c_times d) (Z.of_nat w) ref; Ok (repeat (fst p) (length (fst wt)), snd wt, fst wt))
      (map (fun i => (get EmptyString (c_ids d) i, VS d i)) (seq 0 L)) =
     Ok (map (fun i => (map (fun _ => get EmptyString (c_ids d) i) (seq 0 K), map (fun k => get 0%Z (c_times d) (target w h k)) (seq 0 K), map (fun k => slice k (k + w) (VS d i)) (seq 0 K))) (seq 0 L))).
  { assert (G : forall l, (forall i, In i l -> i < L) -> mapM (fun p : string * list (list O) => do wt <- rolling_window (snd p) (c_times d) (Z.of_nat w) ref; Ok (repeat (fst p) (length (fst wt)), snd wt, fst wt))
      (map (fun i => (get EmptyString (c_ids d) i, VS d i)) l) =
     Ok (map (fun i => (map (fun _ => get EmptyString (c_ids d) i) (seq 0 K), map (fun k => get 0%Z (c_times d) (target w h k)) (seq 0 K), map (fun k => slice k (k + w) (VS d i)) (seq 0 K))) l)).
    { induction l as [|i l IH]; intros Hl; auto. cbn [map mapM fst snd]. rewrite rolling_ok; auto; [|symmetry; apply LR; apply Hl; left; auto].
      cbn [bind fst snd]. rewrite IH by (intros j Hj; apply Hl; right; auto). cbn [bind]. rewrite LR by (apply Hl; left; auto). fold K h. rewrite map_length, seq_length.
      rewrite (repeat_map _ K 0). reflexivity. }
    apply G. intros i Hi. apply in_seq in Hi. lia. }
  rewrite E. cbn [bind]. rewrite map_length, seq_length. destruct (Nat.eqb_spec L 0); [contradiction|]. rewrite !map_map. reflexivity.
Qed.
Lemma concat_len {A} (F : nat -> list A) K L : (forall i, length (F i) = K) -> length (List.concat (map F (seq 0 L))) = L * K.
Proof.
  intros H. assert (G : forall l, length (List.concat (map F l)) = length l * K) by (induction l; cbn [map List.concat length]; auto; rewrite app_length, H, IHl; lia).
  rewrite G, seq_length. reflexivity.
Qed.
Lemma input_permute (d : cube O) i s w : s + w <= length (VS d i) -> input_at d i s w (permute (c_channels d) (slice s (s + w) (VS d i))).
Proof.
  intros H. unfold input_at, permute. rewrite map_length, seq_length. split; auto. intros c Hc. rewrite get_map_seq by auto.
  assert (LS : length (slice s (s + w) (VS d i)) = w) by (rewrite slice_length; lia). split; [rewrite map_length; auto|].
  intros k Hk. unfold nget at 1. rewrite (get_map _ []) by lia. rewrite get_slice by lia. reflexivity.
Qed.
Lemma input_unique (d : cube O) i s w x y : input_at d i s w x -> input_at d i s w y -> x = y.
Proof.
  intros [L H] [L' H']. apply (get_ext []); [lia|]. intros c Hc. rewrite L in Hc. destruct (H c Hc) as [A B], (H' c Hc) as [A' B']. apply (get_ext n_nan); [lia|].
  intros k Hk. rewrite A in Hk. pose proof (B k Hk) as Q. pose proof (B' k Hk) as Q'. unfold nget in *. congruence.
Qed.

Lemma cnn_wd_ok net f (d : cube O) (w : nat) b (ref : Z) : cube_ok d -> c_ids d <> [] -> samplewise net f -> (1 <= b)%Z -> (2 <= ref)%Z ->
  0 < w <= length (c_times d) -> Z.to_nat (ref / 2) <= w ->
  exists m, cnn_wd net (Z.of_nat w) d b ref = Ok m /\ length m = length (c_times d) /\
  forall t, t < length (c_times d) -> length (get [] m t) = length (c_ids d) /\ forall i, i < length (c_ids d) ->
    let e := t + Z.to_nat (ref / 2) in
    (w <= e <= length (c_times d) -> exists x, input_at d i (e - w) w x /\ cell m t i = f x) /\
    (e < w \/ length (c_times d) < e -> cell m t i = n_nan).
Proof.
  intros OK NE HN Hb HR Hw Hh. destruct OK as (ND & NT & LV & LR). unfold cnn_wd, run_inference. rewrite batchify_ok by (try lia; auto; repeat split; auto). cbn [bind].
  rewrite Z.quot_div_nonneg by lia. set (h := Z.to_nat (ref / 2)) in *. assert (H1 : 1 <= h) by (unfold h; assert (1 <= ref / 2)%Z by (apply Z.div_le_lower_bound; lia); lia). clearbody h.
  set (L := length (c_ids d)). set (T := length (c_times d)) in *. set (K := T + 1 - w).
  assert (HL : L <> 0) by (unfold L; destruct (c_ids d); [congruence|discriminate]).
  set (samples := List.concat (map (fun i => map (fun k => slice k (k + w) (VS d i)) (seq 0 K)) (seq 0 L))).
  assert (LS : length samples = L * K) by (apply concat_len; intros; rewrite map_length, seq_length; auto).
  unfold build_dataloader. destruct (Nat.eqb_spec (length samples) 0) as [Z0|_]; [exfalso; rewrite LS in Z0; assert (1 <= K) by (unfold K; lia); nia|].
  destruct (Z.leb_spec b 0); [lia|]. cbn [bind]. rewrite (batches_concat net f) by (auto; rewrite ?map_length; lia).
  unfold redistribute_results. rewrite map_map. unfold samples. rewrite concat_map, map_map.
  rewrite combine_concat by (intros; rewrite !map_length; auto).
  rewrite (combine_concat (fun i => combine (map (fun _ => get EmptyString (c_ids d) i) (seq 0 K)) (map (fun k => get 0%Z (c_times d) (target w h k)) (seq 0 K)))) by (intros; rewrite combine_length, !map_length; lia).
  set (recs := List.concat _).
  assert (RIN : forall p, In p recs <-> exists i k, i < L /\ k < K /\ p = (get EmptyString (c_ids d) i, get 0%Z (c_times d) (target w h k), f (permute (c_channels d) (slice k (k + w) (VS d i))))).
  { intros p. unfold recs. rewrite in_concat. split.
    - intros (l & Hl & Hp). apply in_map_iff in Hl. destruct Hl as (i & <- & Hi). apply in_seq in Hi. rewrite combine_map2, map_map in Hp. rewrite combine_map2 in Hp.
      apply in_map_iff in Hp. destruct Hp as (k & <- & Hk). apply in_seq in Hk. exists i, k. repeat split; lia.
    - intros (i & k & Hi & Hk & ->). eexists. split; [apply in_map_iff; exists i; split; [reflexivity|apply in_seq; lia]|].
      rewrite combine_map2, map_map, combine_map2. apply in_map_iff. exists k. split; auto. apply in_seq. lia. }
  clearbody recs. fold (write1 (O := O) (c_ids d) (c_times d)).
  destruct (full_shape (O := O) T L) as [SH NN].
  destruct (writes_cells (c_ids d) (c_times d) recs _ SH) as [S2 HC].
  eexists. split; [reflexivity|]. split; [apply S2|]. intros t Ht. split; [apply S2; auto|]. intros i Hi. cbv zeta. destruct (HC t i Ht Hi) as [C1 C2].
  assert (TK : forall k, k < K -> target w h k = k + w - h /\ k + w - h < T) by (intros k Hk; unfold target, K in *; destruct (Nat.leb_spec h (k + w)); lia).
  assert (AT : forall i' k, i' < L -> k < K -> (at_cell (c_ids d) (c_times d) (get EmptyString (c_ids d) i', get 0%Z (c_times d) (target w h k), f (permute (c_channels d) (slice k (k + w) (VS d i')))) t i <-> i' = i /\ k + w - h = t)).
  { intros i' k Hi' Hk. destruct (TK k Hk) as [E1 E2]. unfold at_cell. cbn [fst snd]. rewrite E1, first_index_nodup, first_time_nodup by auto. split; [intros [Q1 Q2]; split; congruence|intros [-> ->]; auto]. }
  split.
  - intros He. exists (permute (c_channels d) (slice (t + h - w) (t + h - w + w) (VS d i))). split; [apply input_permute; rewrite LR by auto; fold T; lia|].
    apply C2.
    + eexists. split; [apply RIN; exists i, (t + h - w); split; [auto|]; split; [unfold K; lia|reflexivity]|]. apply AT; auto; [unfold K; lia|]. split; auto. lia.
    + intros p Hp A. apply RIN in Hp. destruct Hp as (i' & k & Hi' & Hk & ->). apply AT in A; auto. destruct A as [-> A]. cbn [snd]. replace k with (t + h - w) by (unfold K in Hk; lia). reflexivity.
  - intros He. etransitivity; [apply C1|apply NN; auto]. intros p Hp A. apply RIN in Hp. destruct Hp as (i' & k & Hi' & Hk & ->). apply AT in A; auto. unfold K in Hk. lia.
Qed.

Lemma cnn_wd_rejects net (d : cube O) (w : nat) b (ref : Z) : cube_ok d -> 0 < w ->
  (c_ids d = [] -> cnn_wd net (Z.of_nat w) d b ref = Err ValueError) /\
  (c_ids d <> [] -> length (c_times d) < w -> cnn_wd net (Z.of_nat w) d b ref = Err RuntimeError) /\
  (c_ids d <> [] -> w <= length (c_times d) -> (ref < 2)%Z -> cnn_wd net (Z.of_nat w) d b ref = Err IndexError) /\
  (c_ids d <> [] -> w <= length (c_times d) -> (2 <= ref)%Z -> (b <= 0)%Z -> cnn_wd net (Z.of_nat w) d b ref = Err ValueError).
Proof.
  intros OK Hw. assert (OK' := OK). destruct OK' as (ND & NT & LV & LR). unfold cnn_wd, run_inference. split; [|split; [|split]].
  - intros E. unfold batchify_windows. rewrite E. reflexivity.
  - intros NE HS. unfold batchify_windows. rewrite (combine_seq EmptyString ([] : list (list O))) by lia. set (L := length (c_ids d)) in *.
    assert (HL : L <> 0) by (unfold L; destruct (c_ids d); [congruence|discriminate]).
    rewrite (mapM_map _ (fun _ => ([], [], []))).
    + cbn [bind]. rewrite map_length, map_length, seq_length. destruct (Nat.eqb_spec L 0); [contradiction|]. rewrite !map_map. cbn [fst snd].
      assert (E : forall A (l : list nat), List.concat (map (fun _ => @nil A) l) = []) by (intros A; induction l; auto). rewrite !E. reflexivity.
    + intros p Hp. apply in_map_iff in Hp. destruct Hp as (i & <- & Hi). apply in_seq in Hi. cbn [fst snd]. rewrite rolling_short; auto; rewrite LR; auto; fold L; lia.
  - intros NE HS HR. unfold batchify_windows. rewrite (combine_seq EmptyString ([] : list (list O))) by lia. set (L := length (c_ids d)) in *.
    assert (HL : L <> 0) by (unfold L; destruct (c_ids d); [congruence|discriminate]).
    rewrite (mapM_err _ IndexError); [reflexivity| |].
    + intros p Hp. apply in_map_iff in Hp. destruct Hp as (i & <- & Hi). apply in_seq in Hi. right. cbn [fst snd]. rewrite rolling_small_ref; auto; rewrite LR; auto; fold L; lia.
    + exists (get EmptyString (c_ids d) 0, VS d 0). split; [apply in_map_iff; exists 0; split; auto; apply in_seq; lia|]. cbn [fst snd]. rewrite rolling_small_ref; auto; rewrite LR; auto; fold L; lia.
  - intros NE HS HR Hb. rewrite batchify_ok by auto. cbn [bind]. unfold build_dataloader.
    match goal with |- context [length ?s =? 0] => set (samples := s) end.
    assert (LS : length samples = length (c_ids d) * (length (c_times d) + 1 - w)) by (apply concat_len; intros; rewrite map_length, seq_length; auto).
    destruct (Nat.eqb_spec (length samples) 0) as [Z0|_]; [exfalso|]. 
    { rewrite LS in Z0. assert (length (c_ids d) <> 0) by (destruct (c_ids d); [congruence|discriminate]). assert (1 <= length (c_times d) + 1 - w) by lia. nia. }
    destruct (Z.leb_spec b 0); [reflexivity|lia].
Qed.
End P.

Lemma rolling_correct {A} (ts : list A) times (w : nat) (ref : Z) : 0 < w -> length times = length ts -> (2 <= ref)%Z ->
  exists ws tt, rolling_window ts times (Z.of_nat w) ref = Ok (ws, tt) /\ length ws = length ts + 1 - w /\ length tt = length ws /\
  forall k, k < length ws -> get [] ws k = slice k (k + w) ts /\
    let h := Z.to_nat (ref / 2) in get 0%Z tt k = get 0%Z times (if h <=? k + w then k + w - h else k + w - 1).
Proof.
  intros Hw HL HR. eexists. eexists. split; [apply rolling_ok; auto|]. rewrite !map_length, seq_length. split; auto. split; auto. intros k Hk.
  rewrite !get_map_seq by auto. split; auto. rewrite Z.quot_div_nonneg by lia. reflexivity.
Qed.
Lemma rolling_targets {A} (ts : list A) times (w : nat) (ref : Z) ws tt : 0 < w -> length times = length ts -> (2 <= ref)%Z -> rolling_window ts times (Z.of_nat w) ref = Ok (ws, tt) ->
  let h := Z.to_nat (ref / 2) in
  (NoDup times -> h <= w -> NoDup tt) /\
  (forall k, w < h -> k < h - w -> k + (h - 1) < length ws -> get 0%Z tt k = get 0%Z tt (k + (h - 1))).
Proof.
  intros Hw HL HR E. rewrite rolling_ok in E by auto. injection E as <- <-. rewrite Z.quot_div_nonneg by lia. cbv zeta. set (h := Z.to_nat (ref / 2)).
  assert (H1 : 1 <= h) by (unfold h; assert (1 <= ref / 2)%Z by (apply Z.div_le_lower_bound; lia); lia). rewrite map_length, seq_length. split.
  - intros ND Hh. apply (proj2 (NoDup_nth _ 0%Z)). rewrite map_length, seq_length. intros i j Hi Hj E. change (get 0%Z (map (fun k => get 0%Z times (target w h k)) (seq 0 (length ts + 1 - w))) i = get 0%Z (map (fun k => get 0%Z times (target w h k)) (seq 0 (length ts + 1 - w))) j) in E.
    rewrite !get_map_seq in E by auto. apply (target_inj w h); auto. apply (proj1 (NoDup_nth times 0%Z) ND); auto; unfold target; destruct (_ <=? _); lia.
  - intros k H2 H3 H4. rewrite !get_map_seq by lia. f_equal. apply target_shared; auto.
Qed.
Lemma rolling_rejects {A} (ts : list A) times ws ref :
  ((ws <= 0)%Z \/ length times <> length ts -> rolling_window ts times ws ref = Err AssertionError) /\
  (length times = length ts -> (0 < ws <= Z.of_nat (length ts))%Z -> (ref < 2)%Z -> rolling_window ts times ws ref = Err IndexError) /\
  (length times = length ts -> (0 < ws)%Z -> (Z.of_nat (length ts) < ws)%Z -> rolling_window ts times ws ref = Ok ([], [])).
Proof.
  split; [apply rolling_asserts|]. split; intros HL H1 H2; replace ws with (Z.of_nat (Z.to_nat ws)) by lia; [apply rolling_small_ref|apply rolling_short]; auto; lia.
Qed.
