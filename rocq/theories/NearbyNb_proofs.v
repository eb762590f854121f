(** * The nearby-link notebook from raw levels on: bins and extremes *)
From Coq Require Import List ZArith Bool Lia.
From Verif Require Import Base Num NumList NpOps Libm RealStat KR_spec Stft_model Workflow_model Workflow_spec Workflow_proofs NearbyChain_model NearbyNb_model NearbyNb_spec.
Import ListNotations.
Local Open Scope nat_scope.

Lemma last_get {A} (d : A) (l : list A) e : l <> [] -> last l e = get d l (length l - 1).
Proof.
  induction l as [|x [|y l] IH]; intros H; [congruence|reflexivity|]. change (last (x :: y :: l) e) with (last (y :: l) e). rewrite IH by discriminate.
  change (length (x :: y :: l)) with (Datatypes.S (length (y :: l))). cbn [length]. rewrite !Nat.sub_succ, !Nat.sub_0_r. reflexivity.
Qed.
Lemma ascending_le times i j : ascending times -> i <= j -> j < length times -> (get 0 times i <= get 0 times j)%Z.
Proof. intros A H1 H2. destruct (Nat.eq_dec i j) as [->|]; [lia|]. specialize (A i j). lia. Qed.

Lemma day_eq : day = one_day.
Proof. reflexivity. Qed.
Lemma hd_get (times : list Z) : hd 0%Z times = get 0%Z times 0.
Proof. destruct times; reflexivity. Qed.

Section Bins.
Variables (w : Z) (times : list Z).
Hypotheses (HW : (0 < w)%Z) (HA : ascending times) (HN : times <> []).
Notation t_ i := (get 0%Z times i).
Notation first := (bin_label w times 0).

Lemma len_pos : 1 <= length times.
Proof using HN. clear HA HW. destruct times; [congruence|simpl; lia]. Qed.
Lemma first_eq : first = (origin times + w * bin_no w times (t_ 0))%Z.
Proof using. unfold bin_label. rewrite hd_get. simpl Z.of_nat. rewrite Z.add_0_r. reflexivity. Qed.
Lemma bin_iff t n : (bin_no w times t = bin_no w times (t_ 0) + n <-> first + w * n <= t < first + w * (n + 1))%Z.
Proof using HW.
  clear HA HN. rewrite first_eq. unfold bin_no. set (o := origin times). set (q := ((t_ 0 - o) / w)%Z).
  pose proof (Z.mod_pos_bound (t - o) w HW). pose proof (Z.div_mod (t - o) w ltac:(lia)). split; intros K.
  - rewrite K in *. nia.
  - symmetry. apply (Z.div_unique_pos _ _ _ (t - o - w * (q + n))); nia.
Qed.
Lemma count_eq : Z.of_nat (bin_count w times) = (bin_no w times (last times 0) - bin_no w times (t_ 0) + 1)%Z.
Proof using HW HA HN.
  destruct times as [|t0 r] eqn:ET; [congruence|]. rewrite <- ET in *. 
  assert (EC : bin_count w times = Z.to_nat (bin_no w times (last times t0) - bin_no w times t0 + 1)) by (rewrite ET; reflexivity).
  assert (E0 : t0 = t_ 0) by (rewrite ET; reflexivity).
  rewrite EC, E0, !(last_get 0%Z) by auto. rewrite Z2Nat.id; [reflexivity|].
  assert (bin_no w times (t_ 0) <= bin_no w times (t_ (length times - 1)))%Z; [|lia].
  unfold bin_no. apply Z.div_le_mono; [lia|]. pose proof (ascending_le times 0 (length times - 1) HA ltac:(lia)).
  pose proof len_pos. lia.
Qed.

Lemma bins_here : bins w times first (bin_count w times).
Proof using HW HA HN.
  constructor.
  - exists (t_ 0 / day)%Z, (bin_no w times (t_ 0)). rewrite first_eq. unfold origin. rewrite hd_get, day_eq. split; [reflexivity|].
    assert (0 < one_day)%Z by reflexivity. pose proof (Z.mod_pos_bound (t_ 0) one_day ltac:(lia)). pose proof (Z.div_mod (t_ 0) one_day ltac:(lia)). lia.
  - rewrite hd_get. assert (K := proj1 (bin_iff (t_ 0) 0%Z)). rewrite Z.add_0_r in K. specialize (K eq_refl). lia.
  - rewrite count_eq. set (b := bin_no w times (last times 0%Z)). set (b0 := bin_no w times (t_ 0)).
    assert (K := proj1 (bin_iff (last times 0%Z) (b - b0))). unfold b, b0 in *. specialize (K ltac:(lia)).
    replace (bin_no w times (last times 0) - bin_no w times (t_ 0) + 1 - 1)%Z with (bin_no w times (last times 0) - bin_no w times (t_ 0))%Z by lia. exact K.
Qed.
Lemma bins_unique a N b M : bins w times a N -> bins w times b M -> a = b /\ N = M.
Proof using HW HN.
  clear HA. intros [(d & k & E & D) F1 L1] [(d' & k' & E' & D') F2 L2].
  assert (d = d'). { unfold one_day in *. nia. }
  subst d'. assert (k = k') by nia. subst k'. assert (EB : a = b) by lia. split; [exact EB|]. rewrite <- EB in L2. nia.
Qed.
Lemma one_bin i : i < length times -> exists n, n < bin_count w times /\ in_bin w times first n i /\
  forall m, in_bin w times first m i -> m = n.
Proof using HW HA HN.
  intros Hi. set (b := bin_no w times (t_ i)). set (b0 := bin_no w times (t_ 0)).
  assert (L1 : (b0 <= b)%Z) by (apply Z.div_le_mono; [lia|]; pose proof (ascending_le times 0 i HA ltac:(lia) Hi); lia).
  assert (L2 : (b <= bin_no w times (last times 0))%Z).
  { rewrite (last_get 0%Z) by auto. apply Z.div_le_mono; [lia|]. pose proof (ascending_le times i (length times - 1) HA ltac:(lia)). pose proof len_pos. lia. }
  pose proof count_eq as C. fold b0 in C.
  assert (E : b = (b0 + Z.of_nat (Z.to_nat (b - b0)))%Z) by lia.
  assert (IB : in_bin w times first (Z.to_nat (b - b0)) i) by (split; [auto|apply bin_iff; exact E]).
  exists (Z.to_nat (b - b0)). split; [lia|]. split; [exact IB|].
  intros m [_ K]. destruct IB as [_ K']. nia.
Qed.
End Bins.

Section Gen.
Context {O : numops} (S : numsem O).
Notation "l .[ i ]" := (get (n_nan : O) l i) (at level 2, left associativity, format "l .[ i ]").

Lemma combine_seq (ts : list Z) (l : list O) : length l = length ts ->
  combine ts l = map (fun i => (get 0%Z ts i, l.[i])) (seq 0 (length ts)).
Proof using.
  revert l; induction ts as [|t ts IH]; intros [|v l] E; try discriminate; [reflexivity|].
  cbn [combine length seq map]. rewrite <- seq_shift, map_map. f_equal. apply IH. simpl in E. lia.
Qed.
Lemma filter_map_swap {A B} (f : A -> B) (g : B -> bool) l : filter g (map f l) = map f (filter (fun x => g (f x)) l).
Proof. induction l as [|x l IH]; [reflexivity|]. simpl. destruct (g (f x)); simpl; rewrite IH; reflexivity. Qed.

Lemma bin_values_seq w times (l : list O) n : length l = length times ->
  bin_values w times l n = map (fun i => l.[i])
    (filter (fun i => (bin_no w times (get 0%Z times i) =? bin_no w times (hd 0%Z times) + Z.of_nat n)%Z) (seq 0 (length times))).
Proof using.
  intros E. unfold bin_values. rewrite combine_seq by auto. rewrite filter_map_swap, map_map. reflexivity.
Qed.
Lemma in_values w times (l : list O) n v : (0 < w)%Z -> length l = length times ->
  In v (bin_values w times l n) <-> exists i, in_bin w times (bin_label w times 0) n i /\ l.[i] = v.
Proof using.
  intros HW E. rewrite bin_values_seq by auto. rewrite in_map_iff. rewrite hd_get. split.
  - intros (i & <- & Hi). apply filter_In in Hi as [Hi B]. apply in_seq in Hi. apply Z.eqb_eq in B. exists i. split; [|reflexivity].
    split; [lia|]. apply bin_iff; auto.
  - intros (i & [Hi B] & <-). exists i. split; [reflexivity|]. apply filter_In. split; [apply in_seq; lia|]. apply Z.eqb_eq. apply bin_iff; auto.
Qed.

Lemma no_nans (v : list O) : existsb n_isnan (filter (fun x => negb (n_isnan x)) v) = false.
Proof using. induction v as [|x v IH]; [reflexivity|]. simpl. destruct (n_isnan x) eqn:E; simpl; [|rewrite E]; exact IH. Qed.
Lemma nanmin_spec (v : list O) : ((forall x, In x v -> missing x) -> missing (nanmin v)) /\
  (forall x, In x v -> ~ missing x -> In (nanmin v) v /\ n_leb (nanmin v) x = true).
Proof using S.
  unfold nanmin. destruct (filter (fun x => negb (n_isnan x)) v) as [|y t] eqn:E.
  - split; [intros _; apply nan_nan; exact S|]. intros x Hx Nx. assert (K : In x []) by (rewrite <- E; apply filter_In; split; [auto|apply negb_true_iff, not_true_is_false; exact Nx]). destruct K.
  - assert (M : is_min (y :: t) (np_fold n_ltb y t)) by (apply (np_min_spec S); reflexivity).
    unfold is_min in M. rewrite <- E, no_nans in M. rewrite E in M. destruct M as [M1 M2]. split.
    + intros H. exfalso. assert (K : In y (filter (fun x => negb (n_isnan x)) v)) by (rewrite E; left; auto).
      apply filter_In in K as [K1 K2]. rewrite (H y K1) in K2. discriminate.
    + intros x Hx Nx. split.
      * rewrite <- E in M1. apply filter_In in M1. apply M1.
      * apply M2. rewrite <- E. apply filter_In. split; [auto|apply negb_true_iff, not_true_is_false; exact Nx].
Qed.
Lemma nanmax_spec (v : list O) : ((forall x, In x v -> missing x) -> missing (nanmax v)) /\
  (forall x, In x v -> ~ missing x -> In (nanmax v) v /\ n_leb x (nanmax v) = true).
Proof using S.
  unfold nanmax. destruct (filter (fun x => negb (n_isnan x)) v) as [|y t] eqn:E.
  - split; [intros _; apply nan_nan; exact S|]. intros x Hx Nx. assert (K : In x []) by (rewrite <- E; apply filter_In; split; [auto|apply negb_true_iff, not_true_is_false; exact Nx]). destruct K.
  - assert (M : is_max (y :: t) (np_fold (fun v acc => n_ltb acc v) y t)) by (apply (np_max_spec S); reflexivity).
    unfold is_max in M. rewrite <- E, no_nans in M. rewrite E in M. destruct M as [M1 M2]. split.
    + intros H. exfalso. assert (K : In y (filter (fun x => negb (n_isnan x)) v)) by (rewrite E; left; auto).
      apply filter_In in K as [K1 K2]. rewrite (H y K1) in K2. discriminate.
    + intros x Hx Nx. split.
      * rewrite <- E in M1. apply filter_In in M1. apply M1.
      * apply M2. rewrite <- E. apply filter_In. split; [auto|apply negb_true_iff, not_true_is_false; exact Nx].
Qed.

Lemma resample_length agg w times (l : list O) : length (resample agg w times l) = bin_count w times.
Proof using. unfold resample. rewrite map_length, seq_length. reflexivity. Qed.
Lemma resample_get agg w times (l : list O) n : n < bin_count w times -> (resample agg w times l).[n] = agg (bin_values w times l n).
Proof using.
  intros H. unfold resample. rewrite get_map with (d := 0) by (rewrite seq_length; auto). unfold get. rewrite seq_nth by auto. reflexivity.
Qed.
Lemma resample_extremes w times (l : list O) n : (0 < w)%Z -> length l = length times -> n < bin_count w times ->
  extremes w times (bin_label w times 0) l n (resample nanmin w times l).[n] (resample nanmax w times l).[n].
Proof using S.
  intros HW E Hn. rewrite !resample_get by auto. destruct (nanmin_spec (bin_values w times l n)) as [A1 A2]. destruct (nanmax_spec (bin_values w times l n)) as [B1 B2].
  split.
  - intros H. assert (H' : forall x, In x (bin_values w times l n) -> missing x) by (intros x Hx; apply in_values in Hx as (i & B & <-); auto). auto.
  - intros i Bi Ni. assert (In l.[i] (bin_values w times l n)) as I by (apply in_values; auto; exists i; auto).
    destruct (A2 _ I Ni) as [A3 A4]. destruct (B2 _ I Ni) as [B3 B4]. split; [exact A4|]. split; [exact B4|].
    split; [apply in_values in A3|apply in_values in B3]; auto.
Qed.

(** ** the levels *)
Variables (lo hi mg : O) (times : list Z).
Notation x := (map n_ofZ times : list O).
Lemma above_length l : length (where_above lo l) = length l.
Proof using. unfold where_above. apply map_length. Qed.
Lemma below_length l : length (where_below hi l) = length l.
Proof using. unfold where_below. apply map_length. Qed.
Lemma above_get l t : t < length l -> (where_above lo l).[t] = if n_ltb lo l.[t] then l.[t] else n_nan.
Proof using. intros H. unfold where_above. rewrite (get_map _ n_nan) by auto. reflexivity. Qed.
Lemma below_get l t : t < length l -> (where_below hi l).[t] = if n_ltb l.[t] hi then l.[t] else n_nan.
Proof using. intros H. unfold where_below. rewrite (get_map _ n_nan) by auto. reflexivity. Qed.
Lemma ltb_num (a b : O) : n_ltb a b = true -> n_isnan a = false /\ n_isnan b = false.
Proof using S. intros H. destruct (n_isnan a) eqn:A; [rewrite (ltb_nan_l S) in H by auto; discriminate|]. destruct (n_isnan b) eqn:B; [rewrite (ltb_nan_r S) in H by auto; discriminate|]. auto. Qed.
Lemma above_valid l t : t < length l -> valid (where_above lo l) t <-> received lo l t.
Proof using S.
  intros H. unfold valid, received. rewrite above_get by auto. destruct (n_ltb lo l.[t]) eqn:E.
  - split; auto. intros _. apply (ltb_num _ _ E).
  - rewrite (nan_nan S). split; discriminate.
Qed.
Lemma below_valid l t : t < length l -> valid (where_below hi l) t <-> sent hi l t.
Proof using S.
  intros H. unfold valid, sent. rewrite below_get by auto. destruct (n_ltb l.[t] hi) eqn:E.
  - split; auto. intros _. apply (ltb_num _ _ E).
  - rewrite (nan_nan S). split; discriminate.
Qed.

Variables (rsl tsl : list O).
Hypotheses (HR : length rsl = length times) (HT : length tsl = length times).
Notation R := (interpolate_na x mg (where_above lo rsl)).
Notation T := (interpolate_na x mg (where_below hi tsl)).
Lemma rstl_length : length (rstl lo hi mg times rsl tsl) = length times.
Proof using HR HT. unfold rstl. rewrite map2_length; rewrite !ina_length, ?above_length, ?below_length; congruence. Qed.
Lemma rstl_get t : t < length times -> (rstl lo hi mg times rsl tsl).[t] = n_sub R.[t] T.[t].
Proof using HR HT. intros H. unfold rstl. apply get_map2; rewrite !ina_length, ?above_length, ?below_length; congruence. Qed.
Lemma rstl_measured t : t < length times -> received lo rsl t -> sent hi tsl t ->
  (rstl lo hi mg times rsl tsl).[t] = n_sub rsl.[t] tsl.[t].
Proof using HR HT S.
  intros H A B. rewrite rstl_get by auto. rewrite !ina_valid; rewrite ?above_length, ?below_length; try congruence; [|apply below_valid; congruence|apply above_valid; congruence].
  rewrite above_get, below_get by congruence. unfold received in A. unfold sent in B. rewrite A, B. reflexivity.
Qed.
Lemma gap_iff (P Q : nat -> Prop) n m i t j : (forall k, k < n -> P k <-> Q k) -> n = m -> in_gap P n i t j <-> in_gap Q m i t j.
Proof using.
  clear HR HT. intros H <-. unfold in_gap. split; intros (A & B & C & D & E); (split; [exact A|]; split; [exact B|]; split; [apply H; auto; lia|]; split; [apply H; auto; lia|]);
    intros k Hk K; (apply (E k Hk)); apply H; auto; lia.
Qed.
Lemma rstl_reached (g : Z) t : (forall i j, i < length times -> j < length times -> short x mg i j -> (get 0 times j - get 0 times i <= g)%Z) ->
  t < length times -> ~ missing (rstl lo hi mg times rsl tsl).[t] ->
  reached (received lo rsl) times g t /\ reached (sent hi tsl) times g t.
Proof using HR HT S.
  intros HS H N. rewrite rstl_get in N by auto.
  assert (NR : valid R t) by (unfold valid; destruct (n_isnan R.[t]) eqn:E; auto; exfalso; apply N; unfold missing; apply (sub_nan_l S); auto).
  assert (NT : valid T t) by (unfold valid; destruct (n_isnan T.[t]) eqn:E; auto; exfalso; apply N; unfold missing; apply (sub_nan2 S); auto).
  split.
  - destruct (n_isnan (where_above lo rsl).[t]) eqn:V; [|left; apply above_valid; [congruence|exact V]].
    right. apply (ina_filled S) in NR; [|rewrite above_length; congruence|unfold valid; congruence].
    destruct NR as (i & j & G & SH). exists i, j.
    rewrite above_length in G. assert (G' : in_gap (received lo rsl) (length times) i t j) by (refine (proj1 (gap_iff (valid (where_above lo rsl)) _ (length rsl) _ i t j _ HR) G); intros; apply above_valid; auto).
    split; [exact G'|]. destruct G' as (G1 & G2 & _). apply HS; auto; lia.
  - destruct (n_isnan (where_below hi tsl).[t]) eqn:V; [|left; apply below_valid; [congruence|exact V]].
    right. apply (ina_filled S) in NT; [|rewrite below_length; congruence|unfold valid; congruence].
    destruct NT as (i & j & G & SH). exists i, j.
    rewrite below_length in G. assert (G' : in_gap (sent hi tsl) (length times) i t j) by (refine (proj1 (gap_iff (valid (where_below hi tsl)) _ (length tsl) _ i t j _ HT) G); intros; apply below_valid; auto).
    split; [exact G'|]. destruct G' as (G1 & G2 & _). apply HS; auto; lia.
Qed.
End Gen.
