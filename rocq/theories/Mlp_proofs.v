(** * Proofs about the MLP wet/dry classification *)
From Coq Require Import List ZArith Bool String Lia Arith Permutation.
From Verif Require Import Base Num NumList NpOps Median NearbyWetdry_model NearbyWetdry_proofs Mlp_model Mlp_spec.
Import ListNotations.
Local Open Scope nat_scope.
Local Notation length := List.length.

Lemma mapM_inv {A B} (f : A -> res B) (d : A) (d' : B) l r : mapM f l = Ok r ->
  length r = length l /\ forall i, i < length l -> f (get d l i) = Ok (get d' r i).
Proof.
  revert r. induction l as [|x l IH]; intros r E; cbn in E.
  - injection E as <-. split; auto. intros i Hi. inversion Hi.
  - destruct (f x) as [y|] eqn:Ex; [|discriminate]. cbn [bind] in E. destruct (mapM f l) as [ys|]; [|discriminate]. cbn [bind] in E. injection E as <-.
    destruct (IH ys eq_refl) as [L H]. split; [cbn; lia|]. intros [|i] Hi; [exact Ex|]. apply H. cbn in Hi. lia.
Qed.

Section P.
Context {O : numops} (S : numsem O).
Variable predict : string -> list O -> res (O * O).
Notation nan2 := ((n_nan, n_nan) : O * O).

(** ** the prediction step *)
Definition pred_rows (sel : string) (x_fts : list (list O)) : res (list (O * O)) :=
  let mlp_pred := repeat nan2 (length x_fts) in
  let indices := where_true (map (fun row => negb (existsb n_isnan row)) x_fts) in
  if Nat.ltb 0 (length indices) then
    do p <- mapM (predict sel) (map (get [] x_fts) indices);
    Ok (scatter indices p mlp_pred)
  else Ok mlp_pred.

Lemma mask_get x_fts t : t < length x_fts -> get false (map (fun row => negb (existsb n_isnan row)) x_fts) t = negb (existsb n_isnan (get ([] : list O) x_fts t)).
Proof. intros H. rewrite (get_map _ []) by auto. reflexivity. Qed.

Lemma pred_rows_inv sel x_fts rows : pred_rows sel x_fts = Ok rows -> length rows = length x_fts /\
  forall t, t < length x_fts ->
   (existsb n_isnan (get [] x_fts t) = false -> predict sel (get [] x_fts t) = Ok (get nan2 rows t)) /\
   (existsb n_isnan (get [] x_fts t) = true -> get nan2 rows t = nan2).
Proof.
  unfold pred_rows. set (mask := map _ x_fts). assert (Lm : length mask = length x_fts) by apply map_length.
  intros E.
  assert (HIn : forall t, t < length x_fts -> (In t (where_true mask) <-> existsb n_isnan (get [] x_fts t) = false)).
  { intros t Ht. rewrite where_true_In. unfold mask at 2. rewrite mask_get by auto. destruct (existsb _ _); cbn; intuition (try lia; try discriminate). }
  destruct (Nat.ltb_spec 0 (length (where_true mask))) as [Hpos|Hz].
  - destruct (mapM _ _) as [p|] eqn:Ep; [|discriminate]. cbn [bind] in E. injection E as <-.
    apply (mapM_inv _ [] nan2) in Ep. rewrite map_length in Ep. destruct Ep as [Lp Hp].
    split; [rewrite scatter_length, repeat_length; auto|]. intros t Ht. split; intros HN.
    + apply HIn in HN; auto. apply (In_get 0) in HN. destruct HN as (k & Hk & Ek).
      assert (G : get nan2 (scatter (where_true mask) p (repeat nan2 (length x_fts))) (get 0 (where_true mask) k) = get nan2 p k).
      { apply scatter_in; auto; [apply where_true_NoDup|]. intros i Hi. apply where_true_In in Hi. rewrite repeat_length. lia. }
      rewrite Ek in G. rewrite G. rewrite <- (Hp k Hk). rewrite (get_map _ 0) by auto. rewrite Ek. reflexivity.
    + rewrite scatter_out; [apply get_repeat; auto|]. rewrite HIn by auto. congruence.
  - injection E as <-. split; [apply repeat_length|]. intros t Ht. split; intros HN; [|apply get_repeat; auto].
    apply HIn in HN; auto. destruct (where_true mask); [destruct HN|cbn in Hz; lia].
Qed.
Lemma pred_rows_ok sel x_fts : (forall t, t < length x_fts -> existsb n_isnan (get [] x_fts t) = false -> exists p, predict sel (get [] x_fts t) = Ok p) ->
  exists rows, pred_rows sel x_fts = Ok rows.
Proof.
  intros H. unfold pred_rows. set (mask := map _ x_fts). destruct (Nat.ltb _ _); [|eexists; reflexivity].
  destruct (mapM_ok (predict sel) [] nan2 (fun _ _ => True) (map (get [] x_fts) (where_true mask))) as (r & E & _).
  - intros row Hin. apply in_map_iff in Hin. destruct Hin as (t & <- & Hin). apply where_true_In in Hin. destruct Hin as [Ht Hn].
    unfold mask in Ht, Hn. rewrite map_length in Ht. rewrite mask_get in Hn by auto. apply negb_true_iff in Hn. destruct (H t Ht Hn) as [p Ep]. eauto.
  - rewrite E. eexists. reflexivity.
Qed.

(** ** rows of the design matrix *)
Lemma clean_slice (d : list O) a : a + 40 <= length d -> existsb n_isnan (slice a (a + 40) d) = false -> clean d a (slice a (a + 40) d).
Proof.
  intros L H. split; auto. assert (Ls : length (slice a (a + 40) d) = 40) by (rewrite slice_length; lia). split; auto.
  intros i Hi. assert (G : nget (slice a (a + 40) d) i = nget d (a + i)) by (unfold nget; rewrite get_slice; auto; lia). split; auto.
  rewrite <- G. apply not_true_iff_false. intros T. apply not_true_iff_false in H. apply H. apply existsb_exists. eexists. split; [|exact T]. apply get_In. lia.
Qed.
Lemma clean_is_slice (d : list O) a w : clean d a w -> w = slice a (a + 40) d.
Proof.
  intros (L & Lw & H). apply (get_ext n_nan); [rewrite slice_length; lia|]. intros i Hi. rewrite get_slice by lia. apply H. lia.
Qed.
Lemma clean_no_nan (d : list O) a w : clean d a w -> existsb n_isnan w = false.
Proof.
  intros (L & Lw & H). apply not_true_iff_false. intros T. apply existsb_exists in T. destruct T as (v & Hv & Tv). apply (In_get n_nan) in Hv.
  destruct Hv as (i & Hi & <-). destruct (H i) as [E N]; [lia|]. unfold nget in *. congruence.
Qed.
Definition design (lag T : nat) (d1 d2 : list O) (M : list (list O)) : Prop :=
  length M = T /\ forall t, t < T ->
   (lag <= t /\ t - lag + 40 <= length d1 -> get [] M t = slice (t - lag) (t - lag + 40) d1 ++ slice (t - lag) (t - lag + 40) d2) /\
   (~ (lag <= t /\ t - lag + 40 <= length d1) -> get [] M t = repeat (n_nan : O) 80).

Lemma design_clean lag T d1 d2 M t : design lag T d1 d2 M -> length d1 = length d2 -> t < T ->
  (existsb n_isnan (get [] M t) = false <-> exists w1 w2, lag <= t /\ clean d1 (t - lag) w1 /\ clean d2 (t - lag) w2) /\
  forall w1 w2, lag <= t -> clean d1 (t - lag) w1 -> clean d2 (t - lag) w2 -> get [] M t = w1 ++ w2.
Proof.
  intros [LM HM] LD Ht. destruct (HM t Ht) as [H1 H2].
  assert (EQ : forall w1 w2, lag <= t -> clean d1 (t - lag) w1 -> clean d2 (t - lag) w2 -> get [] M t = w1 ++ w2).
  { intros w1 w2 Hl C1 C2. rewrite H1 by (split; [auto|apply C1]). rewrite <- (clean_is_slice _ _ _ C1), <- (clean_is_slice _ _ _ C2). reflexivity. }
  split; auto. split.
  - intros HN. destruct (le_dec lag t) as [Hl|Hl]; [destruct (le_dec (t - lag + 40) (length d1)) as [Hc|Hc]|].
    + rewrite H1 in HN by auto. rewrite existsb_app in HN. apply orb_false_iff in HN. destruct HN. do 2 eexists. split; auto. split; apply clean_slice; auto; lia.
    + rewrite H2 in HN by lia. cbn in HN. rewrite (isnan_nan S) in HN. discriminate.
    + rewrite H2 in HN by lia. cbn in HN. rewrite (isnan_nan S) in HN. discriminate.
  - intros (w1 & w2 & Hl & C1 & C2). rewrite (EQ w1 w2) by auto. rewrite existsb_app, (clean_no_nan _ _ _ C1), (clean_no_nan _ _ _ C2). reflexivity.
Qed.

Lemma design_rows sel lag T d1 d2 M rows : design lag T d1 d2 M -> length d1 = length d2 -> pred_rows sel M = Ok rows ->
  length rows = T /\ forall t, t < T -> row_spec (predict sel) lag d1 d2 t (get nan2 rows t).
Proof.
  intros HD LD E. apply pred_rows_inv in E. destruct E as [L H]. destruct HD as [LM HM] eqn:ED. clear ED. rewrite LM in *. split; auto. intros t Ht.
  destruct (design_clean lag T d1 d2 M t HD LD Ht) as [I EQ]. destruct (H t Ht) as [Ha Hb]. destruct (existsb n_isnan (get [] M t)) eqn:N.
  - right. split; auto. intros w1 w2 C. apply diff_true_false. apply I. eauto.
  - left. destruct (proj1 I eq_refl) as (w1 & w2 & Hl & C1 & C2). exists w1, w2. split; auto. split; auto. split; auto. rewrite <- EQ by auto. auto.
Qed.
Lemma design_ok sel lag T d1 d2 M : design lag T d1 d2 M -> length d1 = length d2 ->
  (forall t w1 w2, t < T -> lag <= t -> clean d1 (t - lag) w1 -> clean d2 (t - lag) w2 -> exists p, predict sel (w1 ++ w2) = Ok p) -> exists rows, pred_rows sel M = Ok rows.
Proof.
  intros HD LD H. apply pred_rows_ok. destruct HD as [LM HM] eqn:ED. clear ED. rewrite LM. intros t Ht N.
  destruct (design_clean lag T d1 d2 M t HD LD Ht) as [I EQ]. destruct (proj1 I N) as (w1 & w2 & Hl & C1 & C2). rewrite (EQ w1 w2) by auto. eauto.
Qed.

(** ** the two designs *)
Lemma windows_ok (d1 d2 : list O) : 40 <= length d1 -> length d1 = length d2 ->
  exists h, (do sw1 <- sliding_window_view d1 40; do sw2 <- sliding_window_view d2 40; hstack sw1 sw2) = Ok h /\
  length h = length d1 - 39 /\ forall k, k < length h -> get [] h k = slice k (k + 40) d1 ++ slice k (k + 40) d2.
Proof.
  intros L E. unfold sliding_window_view. rewrite <- E. destruct (Nat.ltb_spec (length d1) 40); [lia|]. cbn [bind]. unfold hstack.
  rewrite !map_length, Nat.eqb_refl. eexists. split; [reflexivity|]. rewrite map2_length, map_length, seq_length by (rewrite !map_length; auto).
  split; [lia|]. intros k Hk. rewrite (get_map2 _ [] []); rewrite ?map_length, ?seq_length; auto. rewrite !get_map_seq by auto. reflexivity.
Qed.
Lemma assemble (h : list (list O)) a b D (d1 d2 : list O) :
  length h = length d1 - 39 -> 40 <= length d1 -> D = a + (length d1 - 39) + b ->
  (forall k, k < length h -> get [] h k = slice k (k + 40) d1 ++ slice k (k + 40) d2) ->
  design a D d1 d2 (repeat (repeat n_nan 80) a ++ h ++ repeat (repeat n_nan 80) b).
Proof.
  intros Lh L40 -> H. split; [rewrite !app_length, !repeat_length; lia|]. intros t Ht. unfold get at 1 2. split.
  - intros [Hl Hc]. rewrite app_nth2 by (rewrite repeat_length; auto). rewrite repeat_length, app_nth1 by lia. apply H. lia.
  - intros N. destruct (Nat.lt_ge_cases t a).
    + rewrite app_nth1 by (rewrite repeat_length; auto). apply (get_repeat []); auto.
    + rewrite app_nth2 by (rewrite repeat_length; auto). rewrite repeat_length, app_nth2 by lia. apply (get_repeat []). lia.
Qed.

Lemma rolling_center_ok bn (x : list O) : (bn = true -> 361 <= length x) ->
  exists m, rolling_median_center bn (12 * 60) (2 * 60) x = Ok m /\ detrended x (map2 n_sub x m) /\ length m = length x.
Proof.
  intros H. unfold rolling_median_center. change (12 * 60 / 2) with 360. change (12 * 60) with 720.
  assert (E : (bn && Nat.ltb (length x + (360 - 1)) 720) = false).
  { destruct bn; auto. cbn [andb]. apply Nat.ltb_ge. specialize (H eq_refl). lia. }
  rewrite E. clear E H. eexists. split; [reflexivity|]. split; [|rewrite map_length, seq_length; auto].
  split; [rewrite map2_length; rewrite ?map_length, ?seq_length; auto|].
  intros s Hs. unfold nget at 1. rewrite (get_map2 _ n_nan n_nan); rewrite ?map_length, ?seq_length; auto. rewrite get_map_seq by auto.
  eexists. split; [reflexivity|].
  assert (EA : not_nan (slice (s - 360) (s + 360) x) = around x s).
  { unfold not_nan, around. f_equal. 
    assert (F : filter (fun i => (Nat.leb s (i + 360) && Nat.ltb i (s + 360))%bool) (seq 0 (length x)) = seq (s - 360) (Nat.min (length x) (s + 360) - (s - 360))).
    { set (lo := s - 360). set (n := Nat.min (length x) (s + 360) - lo).
      replace (length x) with (lo + (n + (length x - (lo + n)))) by lia. rewrite seq_app, seq_app, !filter_app. cbn [plus].
      assert (F1 : forall (P : nat -> bool) l, (forall i, In i l -> P i = false) -> filter P l = []).
      { intros P l. induction l as [|z l IH]; intros Q; auto. cbn. rewrite Q by (left; auto). apply IH. intros; apply Q; right; auto. }
      assert (F2 : forall (P : nat -> bool) l, (forall i, In i l -> P i = true) -> filter P l = l).
      { intros P l. induction l as [|z l IH]; intros Q; auto. cbn. rewrite Q by (left; auto). f_equal. apply IH. intros; apply Q; right; auto. }
      rewrite F1, F2, F1; [apply app_nil_r| | |].
      - intros i Hi. apply in_seq in Hi. apply andb_false_iff. right. apply Nat.ltb_ge. lia.
      - intros i Hi. apply in_seq in Hi. apply andb_true_iff. split; [apply Nat.leb_le|apply Nat.ltb_lt]; lia.
      - intros i Hi. apply in_seq in Hi. apply andb_false_iff. left. apply Nat.leb_gt. lia. }
    rewrite F. apply (get_ext n_nan).
    - rewrite map_length, seq_length. unfold slice. rewrite firstn_length, skipn_length. lia.
    - intros i Hi. unfold slice in Hi. rewrite firstn_length, skipn_length in Hi. rewrite get_slice by lia. rewrite (get_map _ 0) by (rewrite seq_length; lia). unfold nget. f_equal. unfold get. rewrite seq_nth by lia. reflexivity. }
  rewrite EA. change (2 * 60) with 120. split; intros Hc.
  - destruct (Nat.ltb_spec (length (around x s)) 120); [reflexivity|lia].
  - destruct (Nat.ltb_spec (length (around x s)) 120); [lia|]. apply (median_is_median S). intros y Hy. apply filter_In in Hy. apply negb_true_iff. apply Hy.
Qed.

(** ** the whole function *)
Definition offline (sel : string) : Prop := sel = "rg"%string \/ sel = "rad"%string.
Definition online (sel : string) : Prop := sel = "rg_online"%string \/ sel = "rad_online"%string.

Lemma offline_design bn (x1 x2 : list O) : length x1 = length x2 -> 40 <= length x1 -> (bn = true -> 361 <= length x1) ->
  exists d1 d2 M, design_offline bn x1 x2 = Ok M /\ detrended x1 d1 /\ detrended x2 d2 /\ design 20 (length x1) d1 d2 M.
Proof.
  intros E L B. destruct (rolling_center_ok bn x1 B) as (m1 & E1 & D1 & L1). destruct (rolling_center_ok bn x2) as (m2 & E2 & D2 & L2); [rewrite <- E; auto|].
  unfold design_offline. rewrite E1. cbn [bind]. rewrite E2. cbn [bind]. set (d1 := map2 n_sub x1 m1) in *. set (d2 := map2 n_sub x2 m2) in *.
  assert (LD1 : length d1 = length x1) by apply D1. assert (LD2 : length d2 = length x2) by apply D2.
  destruct (windows_ok d1 d2) as (h & Eh & Lh & Hh); [lia|lia|].
  destruct (sliding_window_view d1 40) as [sw1|]; [|discriminate]. cbn [bind] in *. destruct (sliding_window_view d2 40) as [sw2|]; [|discriminate]. cbn [bind] in *.
  rewrite Eh. cbn [bind]. exists d1, d2. eexists. split; [reflexivity|]. split; auto. split; auto. apply assemble; auto; [lia|].
  change (40 / 2) with 20. lia.
Qed.
Lemma diff1_differences (x : list O) : 1 <= length x -> differences x (diff1 x).
Proof.
  intros L. unfold diff1. split; rewrite map_length, seq_length; [lia|]. intros s Hs. unfold nget at 1. rewrite get_map_seq by auto. reflexivity.
Qed.
Lemma online_design x1 x2 : length x1 = length x2 -> 41 <= length x1 ->
  exists d1 d2 M, design_online x1 x2 = Ok M /\ differences x1 d1 /\ differences x2 d2 /\ design 40 (length x1) d1 d2 M.
Proof.
  intros E L. unfold design_online. pose proof (diff1_differences x1) as D1. pose proof (diff1_differences x2) as D2.
  set (d1 := diff1 x1) in *. set (d2 := diff1 x2) in *. clearbody d1 d2. destruct D1 as [LD1 D1]; [lia|]. destruct D2 as [LD2 D2]; [lia|].
  destruct (windows_ok d1 d2) as (h & Eh & Lh & Hh); [lia|lia|].
  destruct (sliding_window_view d1 40) as [sw1|]; [|discriminate]. cbn [bind] in *. destruct (sliding_window_view d2 40) as [sw2|]; [|discriminate]. cbn [bind] in *.
  rewrite Eh. cbn [bind]. exists d1, d2. eexists. split; [reflexivity|]. split; [split; auto|]. split; [split; auto|].
  rewrite <- (app_nil_r h) at 1. apply (assemble h 40 0); auto; lia.
Qed.

Lemma mlp_offline bn (x1 x2 : list O) sel : offline sel -> mlp_wet_dry predict bn x1 x2 sel = (do M <- design_offline bn x1 x2; pred_rows sel M).
Proof. intros [->| ->]; reflexivity. Qed.
Lemma mlp_online bn (x1 x2 : list O) sel : online sel -> mlp_wet_dry predict bn x1 x2 sel = (do M <- design_online x1 x2; pred_rows sel M).
Proof. intros [->| ->]; reflexivity. Qed.

Lemma offline_correct bn (x1 x2 : list O) sel : offline sel -> length x1 = length x2 -> 40 <= length x1 -> (bn = true -> 361 <= length x1) ->
  exists d1 d2, detrended x1 d1 /\ detrended x2 d2 /\
  (forall rows, mlp_wet_dry predict bn x1 x2 sel = Ok rows -> length rows = length x1 /\
     forall t, t < length x1 -> row_spec (predict sel) 20 d1 d2 t (get nan2 rows t)) /\
  ((forall t w1 w2, t < length x1 -> 20 <= t -> clean d1 (t - 20) w1 -> clean d2 (t - 20) w2 -> exists p, predict sel (w1 ++ w2) = Ok p) ->
    exists rows, mlp_wet_dry predict bn x1 x2 sel = Ok rows).
Proof.
  intros HS E L B. destruct (offline_design bn x1 x2 E L B) as (d1 & d2 & M & EM & D1 & D2 & HD). exists d1, d2. split; auto. split; auto.
  assert (LD : length d1 = length d2) by (destruct D1, D2; congruence).
  rewrite (mlp_offline bn x1 x2 sel HS), EM. cbn [bind]. split; [intros rows Er; eapply design_rows; eauto|]. apply design_ok; auto.
Qed.
Lemma online_correct bn (x1 x2 : list O) sel : online sel -> length x1 = length x2 -> 41 <= length x1 ->
  exists d1 d2, differences x1 d1 /\ differences x2 d2 /\
  (forall rows, mlp_wet_dry predict bn x1 x2 sel = Ok rows -> length rows = length x1 /\
     forall t, t < length x1 -> row_spec (predict sel) 40 d1 d2 t (get nan2 rows t)) /\
  ((forall t w1 w2, t < length x1 -> 40 <= t -> clean d1 (t - 40) w1 -> clean d2 (t - 40) w2 -> exists p, predict sel (w1 ++ w2) = Ok p) ->
    exists rows, mlp_wet_dry predict bn x1 x2 sel = Ok rows).
Proof.
  intros HS E L. destruct (online_design x1 x2 E L) as (d1 & d2 & M & EM & D1 & D2 & HD). exists d1, d2. split; auto. split; auto.
  assert (LD : length d1 = length d2) by (destruct D1, D2; lia).
  rewrite (mlp_online bn x1 x2 sel HS), EM. cbn [bind]. split; [intros rows Er; eapply design_rows; eauto|]. apply design_ok; auto.
Qed.

(** ** rejected calls *)
Lemma sliding_err (x : list O) w : length x < w -> sliding_window_view x w = Err ValueError.
Proof. intros H. unfold sliding_window_view. destruct (Nat.ltb_spec (length x) w); [auto|lia]. Qed.
Lemma sliding_len (x : list O) w r : sliding_window_view x w = Ok r -> length r = length x - w + 1 /\ w <= length x.
Proof. unfold sliding_window_view. destruct (Nat.ltb_spec (length x) w); [discriminate|]. intros [= <-]. rewrite map_length, seq_length. auto. Qed.
Lemma windows_err (d1 d2 : list O) : length d1 < 40 \/ length d2 < 40 \/ length d1 <> length d2 ->
  forall g : list (list O) -> res (list (list O)), (do sw1 <- sliding_window_view d1 40; do sw2 <- sliding_window_view d2 40; do h <- hstack sw1 sw2; g h) = Err ValueError.
Proof.
  intros H g. destruct (sliding_window_view d1 40) as [s1|e] eqn:E1.
  - cbn [bind]. destruct (sliding_window_view d2 40) as [s2|e] eqn:E2.
    + apply sliding_len in E1, E2. cbn [bind]. unfold hstack. destruct (Nat.eqb_spec (length s1) (length s2)); [lia|reflexivity].
    + unfold sliding_window_view in E2. destruct (Nat.ltb _ _); [|discriminate]. cbn [bind]. congruence.
  - unfold sliding_window_view in E1. destruct (Nat.ltb _ _); [|discriminate]. cbn [bind]. congruence.
Qed.
Lemma mlp_rejects (bn : bool) (x1 x2 : list O) (sel : string) : (~ offline sel /\ ~ online sel) \/ length x1 <> length x2 \/ (offline sel /\ length x1 < (if bn then 361 else 40)) \/ (online sel /\ length x1 < 41) ->
  mlp_wet_dry predict bn x1 x2 sel = Err ValueError.
Proof.
  intros H.
  assert (K : (~ offline sel /\ ~ online sel) \/ offline sel \/ online sel).
  { unfold offline, online. destruct (string_dec sel "rg"), (string_dec sel "rad"), (string_dec sel "rg_online"), (string_dec sel "rad_online"); tauto. }
  destruct K as [[K1 K2]|[K|K]].
  - unfold mlp_wet_dry. assert (F : forall s, sel <> s -> (sel =? s)%string = false) by (intros; apply String.eqb_neq; auto).
    unfold offline, online in *. rewrite !F by tauto. reflexivity.
  - rewrite (mlp_offline bn x1 x2 sel K). unfold design_offline.
    assert (HK : length x1 <> length x2 \/ length x1 < (if bn then 361 else 40)).
    { destruct H as [[H _]|[H|[[_ H]|[Ho _]]]]; auto. exfalso. destruct K as [->| ->], Ho; discriminate. }
    clear H. unfold rolling_median_center at 1. change (12 * 60) with 720. change (720 / 2) with 360.
    destruct (bn && Nat.ltb (length x1 + (360 - 1)) 720)%bool eqn:B1; [reflexivity|]. cbn [bind].
    unfold rolling_median_center at 1. change (720 / 2) with 360.
    destruct (bn && Nat.ltb (length x2 + (360 - 1)) 720)%bool eqn:B2; [reflexivity|]. cbn [bind].
    rewrite windows_err; [reflexivity|]. rewrite !map2_length by (rewrite map_length, seq_length; auto).
    destruct bn; cbn [andb] in *; [apply Nat.ltb_ge in B1; apply Nat.ltb_ge in B2|]; lia.
  - rewrite (mlp_online bn x1 x2 sel K). unfold design_online.
    assert (HK : length x1 <> length x2 \/ length x1 < 41).
    { destruct H as [[_ H]|[H|[[Ho _]|[_ H]]]]; auto. exfalso. destruct K as [->| ->], Ho; discriminate. }
    clear H. rewrite windows_err; [reflexivity|]. unfold diff1. rewrite !map_length, !seq_length. lia.
Qed.

(** ** the online models are causal *)
Definition agree (a b : nat) (x y : list O) : Prop := forall i, a <= i <= b -> nget x i = nget y i.
Lemma differences_unique (x d d' : list O) : differences x d -> differences x d' -> d = d'.
Proof.
  intros [L H] [L' H']. apply (get_ext n_nan); [lia|]. intros i Hi. pose proof (H i Hi) as Q. pose proof (H' i ltac:(lia)) as Q'. unfold nget in *. congruence.
Qed.
Lemma clean_agree (x y d e : list O) t w : differences x d -> differences y e -> length x = length y -> 40 <= t -> agree (t - 40) t x y -> clean d (t - 40) w -> clean e (t - 40) w.
Proof.
  intros [LD D] [LE E] L Ht A (C1 & C2 & C3). split; [lia|]. split; auto. intros i Hi. destruct (C3 i Hi) as [Q1 Q2].
  assert (Q : nget e (t - 40 + i) = nget d (t - 40 + i)). { rewrite D, E by lia. rewrite !A by lia. reflexivity. }
  rewrite Q. auto.
Qed.
Lemma agree_sym a b x y : agree a b x y -> agree a b y x.
Proof. intros H i Hi. symmetry. auto. Qed.

Lemma online_causal bn (x1 x2 : list O) y1 y2 sel r q t : online sel -> length x1 = length x2 -> length y1 = length y2 -> length x1 = length y1 ->
  mlp_wet_dry predict bn x1 x2 sel = Ok r -> mlp_wet_dry predict bn y1 y2 sel = Ok q -> t < length x1 ->
  agree (t - 40) t x1 y1 -> agree (t - 40) t x2 y2 -> get nan2 r t = get nan2 q t.
Proof.
  intros HS L1 L2 L Er Eq Ht A1 A2.
  assert (L41 : 41 <= length x1).
  { destruct (le_lt_dec 41 (length x1)); auto. rewrite mlp_rejects in Er; [discriminate|auto]. }
  destruct (online_correct bn x1 x2 sel HS L1 L41) as (d1 & d2 & D1 & D2 & H & _). destruct (H r Er) as [_ R]. specialize (R t Ht).
  destruct (online_correct bn y1 y2 sel HS L2) as (e1 & e2 & E1 & E2 & H' & _); [lia|]. destruct (H' q Eq) as [_ Q]. specialize (Q t ltac:(lia)).
  assert (P1 : forall w, 40 <= t -> clean d1 (t - 40) w -> clean e1 (t - 40) w) by (intros w Hl C; apply (clean_agree x1 y1 d1 e1 t w); auto; lia).
  assert (P2 : forall w, 40 <= t -> clean d2 (t - 40) w -> clean e2 (t - 40) w) by (intros w Hl C; apply (clean_agree x2 y2 d2 e2 t w); auto; lia).
  assert (P3 : forall w, 40 <= t -> clean e1 (t - 40) w -> clean d1 (t - 40) w) by (intros w Hl C; apply (clean_agree y1 x1 e1 d1 t w); auto using agree_sym; lia).
  assert (P4 : forall w, 40 <= t -> clean e2 (t - 40) w -> clean d2 (t - 40) w) by (intros w Hl C; apply (clean_agree y2 x2 e2 d2 t w); auto using agree_sym; lia).
  destruct R as [(w1 & w2 & Hl & C1 & C2 & R)|[N R]], Q as [(v1 & v2 & Hl' & C1' & C2' & Q)|[N' Q]].
  - rewrite (clean_is_slice _ _ _ (P1 _ Hl C1)), (clean_is_slice _ _ _ (P2 _ Hl C2)) in R. rewrite (clean_is_slice _ _ _ C1'), (clean_is_slice _ _ _ C2') in Q. congruence.
  - exfalso. apply (N' w1 w2). auto.
  - exfalso. apply (N v1 v2). auto.
  - congruence.
Qed.
End P.
