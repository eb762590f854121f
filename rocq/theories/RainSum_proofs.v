(** * Proofs for C145 *)
From Coq Require Import List ZArith Bool Reals Lra Lia Sorted Permutation.
From Flocq Require Import Core.Raux.
From Verif Require Import Base Num NumList NumF64 RealSpec RealStat Stft_proofs NearbyNb_model NearbyNb_spec NearbyNb_proofs KR_spec KR_proofs RainMap_spec RainMap_proofs RainSum_model RainSum_spec.
Import ListNotations.
Local Open Scope nat_scope.
Local Notation length := List.length.

Lemma rsum_cons x l : rsum (x :: l) = (x + rsum l)%R.
Proof. reflexivity. Qed.
Lemma rsum_if {A} (f : A -> bool) (g : A -> R) l : rsum (map (fun i => if f i then g i else 0%R) l) = rsum (map g (filter f l)).
Proof. induction l as [|x l IH]; [reflexivity|]. cbn [map filter]. rewrite rsum_cons. destruct (f x); cbn [map]; rewrite ?rsum_cons, IH; [reflexivity|lra]. Qed.
Lemma filter_and {A} (f g : A -> bool) l : filter g (filter f l) = filter (fun x => f x && g x) l.
Proof. induction l as [|x l IH]; [reflexivity|]. cbn [filter]. destruct (f x) eqn:E; cbn [andb]; [cbn [filter]; destruct (g x); rewrite IH; reflexivity|exact IH]. Qed.

Lemma in_binb w times t n : (0 < w)%Z -> (bin_no w times t =? bin_no w times (hd 0 times) + Z.of_nat n)%Z =
  ((bin_label w times 0 + w * Z.of_nat n <=? t) && (t <? bin_label w times 0 + w * (Z.of_nat n + 1)))%Z.
Proof.
  intros HW. rewrite hd_get. pose proof (bin_iff w times HW t (Z.of_nat n)) as B.
  destruct (Z.eqb_spec (bin_no w times t) (bin_no w times (get 0%Z times 0) + Z.of_nat n)) as [E|E].
  - apply B in E. symmetry. apply andb_true_iff. split; [apply Z.leb_le|apply Z.ltb_lt]; lia.
  - symmetry. apply andb_false_iff. destruct (Z.leb_spec (bin_label w times 0 + w * Z.of_nat n) t); [right|left; auto].
    apply Z.ltb_ge. destruct (Z.lt_ge_cases t (bin_label w times 0 + w * (Z.of_nat n + 1))); auto. exfalso. apply E, B. lia.
Qed.

Notation lo w times n := (bin_label w times 0 + w * Z.of_nat n)%Z.

Lemma values_during {O : numops} w times (l : list O) n : (0 < w)%Z -> length l = length times ->
  filter (fun v => negb (n_isnan v)) (bin_values w times l n) =
  map (fun i => get n_nan l i) (filter (fun i => during times (lo w times n) (lo w times n + w) i && negb (n_isnan (get n_nan l i))) (seq 0 (length times))).
Proof.
  intros HW E. rewrite bin_values_seq by auto. rewrite filter_map_swap, filter_and. f_equal. apply filter_ext. intros i. f_equal.
  unfold during. rewrite in_binb by auto. replace (lo w times n + w)%Z with (bin_label w times 0 + w * (Z.of_nat n + 1))%Z by ring. reflexivity.
Qed.

Lemma plain_get l i : plain_series l -> n_isnan (get n_nan l i : XR) = false -> exists r, get n_nan l i = (XFin r : XR).
Proof.
  intros H E. destruct (le_lt_dec (length l) i) as [L|L]; [unfold get in E; rewrite nth_overflow in E by auto; discriminate E|].
  assert (K : n_isinf (get n_nan l i : XR) = false) by (apply H; apply nth_In; auto). destruct (get n_nan l i) as [| |r|]; try discriminate. eauto.
Qed.
Lemma numbers_ofR l idx : plain_series l -> (forall i, In i idx -> n_isnan (get n_nan l i : XR) = false) ->
  map (fun i => get n_nan l i) idx = ofR (map (fun i => part (get n_nan l i)) idx).
Proof.
  intros H E. unfold ofR. rewrite map_map. apply map_ext_in. intros i Hi. destruct (plain_get l i H (E i Hi)) as [r ->]. reflexivity.
Qed.

Lemma sum_bin w times (l : list XR) n : (0 < w)%Z -> length l = length times -> plain_series l ->
  nan_sum (bin_values w times l n) = (XFin (sum_in times l (lo w times n) (lo w times n + w)) : XR).
Proof.
  intros HW E P. unfold nan_sum. rewrite values_during by auto. rewrite numbers_ofR; [|auto|intros i Hi; apply filter_In in Hi; destruct Hi as [_ Hi]; apply andb_true_iff in Hi; destruct Hi as [_ Hi]; apply negb_true_iff in Hi; auto].
  rewrite n_sum_ofR. refine (f_equal (XFin : R -> XR) _). unfold sum_in. rewrite rsum_if, <- filter_and.
  generalize (filter (during times (lo w times n) (lo w times n + w)) (seq 0 (length times))). intros idx. induction idx as [|i idx IH]; [reflexivity|].
  cbn [filter map]. rewrite rsum_cons, <- IH. destruct (n_isnan (get n_nan l i)) eqn:N; cbn [negb map]; rewrite ?rsum_cons; [|reflexivity].
  destruct (get n_nan l i); try discriminate. cbn. lra.
Qed.
Lemma mean_bin w times (l : list XR) n : (0 < w)%Z -> length l = length times -> plain_series l ->
  let a := lo w times n in
  nan_mean (bin_values w times l n) = (if measured_in times l a (a + w) =? 0 then XNaN else XFin (sum_in times l a (a + w) / INR (measured_in times l a (a + w))) : XR).
Proof.
  intros HW E P a. pose proof (sum_bin w times l n HW E P) as SB. unfold nan_sum in SB. unfold nan_mean, n_mean. rewrite SB. fold a.
  rewrite values_during by auto. rewrite map_length. fold a. change (length (filter (fun i => during times a (a + w) i && negb (n_isnan (get n_nan l i))) (seq 0 (length times)))) with (measured_in times l a (a + w)).
  change (n_ofZ (Z.of_nat (measured_in times l a (a + w))) : XR) with (XFin (IZR (Z.of_nat (measured_in times l a (a + w))))). rewrite <- INR_IZR_INZ.
  destruct (Nat.eqb_spec (measured_in times l a (a + w)) 0) as [Z|NZ].
  - rewrite Z. assert (S0 : sum_in times l a (a + w) = 0%R).
    { unfold measured_in in Z. unfold sum_in. apply length_zero_iff_nil in Z. rewrite rsum_if. rewrite <- filter_and in Z. revert Z.
      generalize (filter (during times a (a + w)) (seq 0 (length times))). induction l0 as [|i idx IH]; [reflexivity|]. cbn [filter map]. rewrite rsum_cons.
      destruct (n_isnan (get n_nan l i)) eqn:N; cbn [negb]; [|discriminate]. intros Z. rewrite IH by auto. destruct (get n_nan l i); try discriminate. cbn. lra. }
    rewrite S0. cbn. rewrite Req_bool_true, Rcompare_Eq by auto. reflexivity.
  - change (xdiv (XFin (sum_in times l a (a + w))) (XFin (INR (measured_in times l a (a + w)))) = XFin (sum_in times l a (a + w) / INR (measured_in times l a (a + w)))).
    unfold xdiv. rewrite Req_bool_false; [reflexivity|]. apply not_0_INR; auto.
Qed.

(** ** every sample is counted once *)
Lemma rsum_zero {A} (l : list A) : rsum (map (fun _ => 0%R) l) = 0%R.
Proof. induction l as [|x l IH]; [reflexivity|]. cbn [map]. rewrite rsum_cons, IH. lra. Qed.
Lemma rsum_plus {A} (f g : A -> R) l : rsum (map (fun x => f x + g x)%R l) = (rsum (map f l) + rsum (map g l))%R.
Proof. induction l as [|x l IH]; [cbn; lra|]. cbn [map]. rewrite !rsum_cons, IH. lra. Qed.
Lemma rsum_swap {A B} (f : A -> B -> R) la lb : rsum (map (fun a => rsum (map (f a) lb)) la) = rsum (map (fun b => rsum (map (fun a => f a b) la)) lb).
Proof.
  induction la as [|a la IH]; [cbn [map]; symmetry; apply rsum_zero|]. cbn [map]. rewrite rsum_cons, IH, <- rsum_plus. reflexivity.
Qed.
Lemma rsum_ext {A} (f g : A -> R) l : (forall x, In x l -> f x = g x) -> rsum (map f l) = rsum (map g l).
Proof. intros H. f_equal. apply map_ext_in. exact H. Qed.
Lemma rsum_one (f : nat -> R) n N : n < N -> (forall m, m < N -> m <> n -> f m = 0%R) -> rsum (map f (seq 0 N)) = f n.
Proof.
  intros Hn H. assert (G : forall k s, (forall m, s <= m < s + k -> m <> n -> f m = 0%R) -> rsum (map f (seq s k)) = if (s <=? n) && (n <? s + k) then f n else 0%R).
  { induction k as [|k IH]; intros s K; cbn [seq map].
    - destruct (Nat.leb_spec s n), (Nat.ltb_spec n (s + 0)); cbn; try lia; reflexivity.
    - rewrite rsum_cons, IH by (intros; apply K; lia). destruct (Nat.eq_dec s n) as [->|NE].
      + destruct (Nat.leb_spec (Datatypes.S n) n); [lia|]. destruct (Nat.leb_spec n n), (Nat.ltb_spec n (n + Datatypes.S k)); cbn; try lia. lra.
      + rewrite (K s) by lia. destruct (Nat.leb_spec (Datatypes.S s) n), (Nat.ltb_spec n (Datatypes.S s + k)), (Nat.leb_spec s n), (Nat.ltb_spec n (s + Datatypes.S k)); cbn; try lia; lra. }
  rewrite G by (intros; apply H; lia). destruct (Nat.leb_spec 0 n), (Nat.ltb_spec n (0 + N)); try lia. reflexivity.
Qed.

Lemma bins_total w times (l : list XR) (Q P : nat -> bool) : (0 < w)%Z -> ascending times -> times <> [] ->
  (forall i n, i < length times -> in_bin w times (bin_label w times 0) n i -> Q n = P i) ->
  rsum (map (fun n => if Q n then sum_in times l (lo w times n) (lo w times n + w) else 0%R) (seq 0 (bin_count w times))) =
  rsum (map (fun i => if P i then part (get n_nan l i) else 0%R) (seq 0 (length times))).
Proof.
  intros HW HA HN H. unfold sum_in.
  transitivity (rsum (map (fun n => rsum (map (fun i => if Q n && during times (lo w times n) (lo w times n + w) i then part (get n_nan l i) else 0%R) (seq 0 (length times)))) (seq 0 (bin_count w times)))).
  { apply rsum_ext. intros n _. destruct (Q n); cbn [andb]; [reflexivity|symmetry; apply rsum_zero]. }
  rewrite rsum_swap. apply rsum_ext. intros i Hi. apply in_seq in Hi. destruct (one_bin w times HW HA HN i ltac:(lia)) as (n & Hn & IB & U).
  assert (D : forall m, during times (lo w times m) (lo w times m + w) i = true -> m = n).
  { intros m Dm. apply U. unfold during in Dm. apply andb_true_iff in Dm. destruct Dm as [D1 D2]. apply Z.leb_le in D1. apply Z.ltb_lt in D2. split; [lia|]. lia. }
  rewrite (rsum_one _ n); [|exact Hn|].
  2: { intros m Hm NE. destruct (during times (lo w times m) (lo w times m + w) i) eqn:Dm; [exfalso; apply NE, D; auto|rewrite andb_false_r; reflexivity]. }
  assert (Dn : during times (lo w times n) (lo w times n + w) i = true).
  { destruct IB as [_ IB]. unfold during. apply andb_true_iff. split; [apply Z.leb_le|apply Z.ltb_lt]; lia. }
  rewrite Dn, andb_true_r, (H i n) by (auto; lia). reflexivity.
Qed.

Lemma sums_exact w c times (l : list XR) a N : (0 < w)%Z -> c <> 0%R -> ascending times -> times <> [] -> length l = length times -> plain_series l -> bins w times a N ->
  exists s, rain_sums w (XFin c : XR) times l = ofR s /\ length s = N /\
  (forall n, n < N -> rget s n = (sum_in times l (a + w * Z.of_nat n) (a + w * Z.of_nat n + w) / c)%R) /\
  (rsum s = rsum (numbers l) / c)%R.
Proof.
  intros HW HC HA HN E P B. destruct (bins_unique w times HW HN a N _ _ B (bins_here w times HW HA HN)) as [-> ->].
  exists (map (fun n => sum_in times l (lo w times n) (lo w times n + w) / c)%R (seq 0 (bin_count w times))). repeat split.
  - unfold rain_sums, resample, ofR. rewrite !map_map. apply map_ext. intros n. rewrite sum_bin by auto.
    change (xdiv (XFin (sum_in times l (lo w times n) (lo w times n + w))) (XFin c) = XFin (sum_in times l (lo w times n) (lo w times n + w) / c)). unfold xdiv. rewrite Req_bool_false by auto. reflexivity.
  - rewrite map_length, seq_length. reflexivity.
  - intros n Hn. unfold rget. rewrite get_map with (d := 0) by (rewrite seq_length; auto).
    unfold get. rewrite seq_nth by auto. reflexivity.
  - assert (K := bins_total w times l (fun _ => true) (fun _ => true) HW HA HN ltac:(auto)). cbn in K.
    assert (SD : forall (f : nat -> R) idx, rsum (map (fun n => f n / c)%R idx) = (rsum (map f idx) / c)%R).
    { intros f idx. induction idx as [|x idx IH]; [cbn; lra|]. cbn [map]. rewrite !rsum_cons, IH. lra. }
    rewrite SD, K. f_equal. rewrite <- E. unfold numbers. clear -P. induction l as [|x l IH]; [reflexivity|].
    cbn [length seq map filter]. rewrite <- seq_shift, map_map, rsum_cons. change (get n_nan (x :: l) 0) with x.
    assert (IH' := IH ltac:(intros y Hy; apply P; right; auto)). clear IH.
    assert (EE : rsum (map (fun i => part (get n_nan (x :: l) (Datatypes.S i))) (seq 0 (length l))) = rsum (map (fun i => part (get n_nan l i)) (seq 0 (length l)))) by (apply rsum_ext; reflexivity).
    etransitivity; [apply f_equal; exact EE|]. etransitivity; [apply f_equal; exact IH'|].
    specialize (P x (or_introl eq_refl)). destruct x; try discriminate P.
    + change (0 + rsum (map part (filter (fun x : XR => negb (n_isnan x)) l)) = rsum (map part (filter (fun x : XR => negb (n_isnan x)) l)))%R. lra.
    + reflexivity.
Qed.

Lemma means_exact w times (l : list XR) a N : (0 < w)%Z -> ascending times -> times <> [] -> length l = length times -> plain_series l -> bins w times a N ->
  length (rain_means w times l) = N /\ forall n, n < N ->
  let f := (a + w * Z.of_nat n)%Z in let k := measured_in times l f (f + w) in let v := get (n_nan : XR) (rain_means w times l) n in
  (k = 0 -> v = (XNaN : XR)) /\ (k <> 0 -> v = (XFin (sum_in times l f (f + w) / INR k) : XR)).
Proof.
  intros HW HA HN E P B. destruct (bins_unique w times HW HN a N _ _ B (bins_here w times HW HA HN)) as [-> ->].
  split; [apply resample_length|]. intros n Hn f k v. assert (EV : v = nan_mean (bin_values w times l n)) by (apply resample_get; auto).
  rewrite mean_bin in EV by auto. cbn zeta in EV. fold f in EV. fold k in EV. split; intros K; rewrite EV; destruct (Nat.eqb_spec k 0); congruence.
Qed.

(** ** how the two compare *)
Lemma sum_in_nonneg times l a b : (forall x, In x l -> (0 <= part x)%R) -> (0 <= sum_in times l a b)%R.
Proof.
  intros H. unfold sum_in. assert (G : forall idx, (0 <= rsum (map (fun i => if during times a b i then part (get n_nan l i) else 0%R) idx))%R); [|apply G].
  induction idx as [|i idx IH]; [cbn; lra|]. cbn [map]. rewrite rsum_cons. assert (0 <= part (get n_nan l i))%R; [|destruct (during times a b i); lra].
  destruct (le_lt_dec (length l) i) as [L|L]; [unfold get; rewrite nth_overflow by auto; cbn; lra|]. apply H, nth_In; auto.
Qed.

Lemma sum_below_mean w c times (l : list XR) a N m n : (0 < w)%Z -> (0 < c)%R -> ascending times -> times <> [] -> length l = length times -> plain_series l ->
  (forall x, In x l -> (0 <= part x)%R) -> bins w times a N -> n < N ->
  let f := (a + w * Z.of_nat n)%Z in let k := measured_in times l f (f + w) in
  0 < k <= m -> exists s r, get (n_nan : XR) (rain_sums w (XFin c : XR) times l) n = (XFin s : XR) /\ get (n_nan : XR) (rain_means w times l) n = (XFin r : XR) /\
  (s = INR k / INR m * (r * INR m / c))%R /\ (s <= r * INR m / c)%R /\ (s = r * INR m / c <-> k = m \/ r = 0)%R.
Proof.
  intros HW HC HA HN E P NN B Hn f k Hk.
  destruct (sums_exact w c times l a N HW ltac:(lra) HA HN E P B) as (s & E1 & L1 & G1 & _).
  destruct (means_exact w times l a N HW HA HN E P B) as [L2 G2]. specialize (G2 n Hn). cbv zeta in G2. fold f in G2. fold k in G2. destruct G2 as [_ G2].
  specialize (G1 n Hn). fold f in G1. set (S := sum_in times l f (f + w)) in *. assert (S0 : (0 <= S)%R) by (apply sum_in_nonneg; auto).
  assert (K0 : (0 < INR k)%R) by (apply lt_0_INR; lia). assert (KM : (INR k <= INR m)%R) by (apply le_INR; lia). assert (M0 : (0 < INR m)%R) by lra.
  exists (S / c)%R, (S / INR k)%R. split.
  - rewrite E1. unfold ofR. rewrite get_map with (d := 0%R) by lia. change (get 0%R s n) with (rget s n). rewrite G1. reflexivity.
  - split; [apply G2; lia|]. split; [field; lra|].
    assert (EQ : (S / INR k * INR m / c = S / c * (INR m / INR k))%R) by (field; lra). rewrite EQ.
    assert (R1 : (1 <= INR m / INR k)%R). { apply (Rmult_le_reg_r (INR k)); auto. unfold Rdiv. rewrite Rmult_assoc, Rinv_l by lra. lra. }
    assert (SC : (0 <= S / c)%R) by (apply Rmult_le_pos; [auto|left; apply Rinv_0_lt_compat; auto]). split; [nra|]. split.
    + intros X. destruct (Req_dec (S / c) 0) as [Z|NZ].
      * right. assert (S = 0)%R. { apply (f_equal (fun y => y * c)%R) in Z. replace (S / c * c)%R with S in Z by (field; lra). lra. } rewrite H. unfold Rdiv. ring.
      * left. assert (INR m / INR k = 1)%R. { apply (Rmult_eq_reg_l (S / c)); auto. lra. }
        apply INR_eq. apply (f_equal (fun y => y * INR k)%R) in H. replace (INR m / INR k * INR k)%R with (INR m) in H by (field; lra). lra.
    + intros [Ek|Er].
      * rewrite Ek. replace (INR m / INR m)%R with 1%R by (field; lra). ring.
      * assert (S = 0)%R. { apply (f_equal (fun y => y * INR k)%R) in Er. replace (S / INR k * INR k)%R with S in Er by (field; lra). lra. } rewrite H. unfold Rdiv. ring.
Qed.

(** ** sums of sums *)
Lemma nested_sums w k times (l : list XR) a N : (0 < w)%Z -> (0 < k)%Z -> ascending times -> times <> [] -> length l = length times -> plain_series l -> bins w times a N ->
  resample nan_sum (k * w) (map (fun n => (a + w * Z.of_nat n)%Z) (seq 0 N)) (resample nan_sum w times l) = resample nan_sum (k * w) times l.
Proof.
  intros HW HK HA HN E P B. destruct (bins_unique w times HW HN a N _ _ B (bins_here w times HW HA HN)) as [-> ->]. clear B.
  set (N := bin_count w times). set (lab := map (fun n => lo w times n) (seq 0 N)).
  pose proof (count_eq w times HW HA HN) as CE. fold N in CE. pose proof (len_pos times HN) as LP.
  assert (HW' : (0 < k * w)%Z) by nia.
  assert (BM : (bin_no w times (get 0%Z times 0) <= bin_no w times (last times 0))%Z).
  { unfold bin_no. apply Z.div_le_mono; [lia|]. rewrite (last_get 0%Z) by auto. pose proof (ascending_le times 0 (length times - 1) HA ltac:(lia)). lia. }
  assert (N1 : 1 <= N) by lia.
  assert (LL : length lab = N) by (unfold lab; rewrite map_length, seq_length; auto).
  assert (LG : forall n, n < N -> get 0%Z lab n = lo w times n).
  { intros n Hn. unfold lab. rewrite get_map with (d := 0) by (rewrite seq_length; auto). unfold get. rewrite seq_nth by auto. reflexivity. }
  assert (NL : lab <> []) by (intros X; rewrite X in LL; cbn in LL; lia).
  assert (H0 : hd 0%Z lab = bin_label w times 0) by (rewrite hd_get, LG by lia; lia).
  assert (LA : last lab 0%Z = lo w times (N - 1)) by (rewrite (last_get 0%Z) by auto; rewrite LL; apply LG; lia).
  set (o := origin times) in *. set (b0 := bin_no w times (get 0%Z times 0)) in *. set (b1 := bin_no w times (last times 0%Z)) in *.
  assert (F : bin_label w times 0 = (o + w * b0)%Z) by (apply first_eq).
  assert (DP : (0 < day)%Z) by reflexivity.
  assert (OB : (o <= get 0%Z times 0 < o + day)%Z).
  { unfold o, origin. rewrite hd_get. pose proof (Z.mod_pos_bound (get 0%Z times 0) day DP). pose proof (Z.div_mod (get 0%Z times 0) day ltac:(lia)). lia. }
  assert (B0 : (0 <= b0)%Z) by (unfold b0, bin_no; fold o; apply Z.div_pos; lia).
  assert (FB : (o + w * b0 <= get 0%Z times 0)%Z).
  { unfold b0, bin_no. fold o. pose proof (Z.mod_pos_bound (get 0%Z times 0 - o) w HW). pose proof (Z.div_mod (get 0%Z times 0 - o) w ltac:(lia)). lia. }
  assert (OO : origin lab = o).
  { unfold origin at 1. rewrite H0, F. assert (Q : (o = day * (get 0%Z times 0 / day))%Z) by (unfold o, origin; rewrite hd_get; reflexivity).
    assert (R : ((o + w * b0) / day = get 0%Z times 0 / day)%Z).
    { symmetry. apply (Z.div_unique_pos _ _ _ (o + w * b0 - o)); nia. }
    rewrite R. lia. }
  assert (DD : forall t j, (o + w * j <= t < o + w * (j + 1))%Z -> ((t - o) / (k * w) = j / k)%Z).
  { intros t j Ht. rewrite Z.mul_comm, <- Z.div_div by lia. f_equal. symmetry. apply (Z.div_unique_pos _ _ _ (t - o - w * j)); nia. }
  assert (NB0 : bin_no (k * w) lab (hd 0%Z lab) = bin_no (k * w) times (hd 0%Z times)).
  { unfold bin_no. rewrite OO. fold o. rewrite H0, F, hd_get. rewrite (DD (o + w * b0)%Z b0) by lia. symmetry. apply DD.
    pose proof (proj1 (bin_iff w times HW (get 0%Z times 0) 0%Z)) as X. fold b0 in X. rewrite F in X. specialize (X ltac:(lia)). lia. }
  assert (NB1 : bin_no (k * w) lab (last lab 0%Z) = bin_no (k * w) times (last times 0%Z)).
  { unfold bin_no. rewrite OO. fold o. rewrite LA, F. replace (Z.of_nat (N - 1)) with (b1 - b0)%Z by lia. rewrite (DD _ b1) by (clear - HW; nia). symmetry. apply DD.
    pose proof (proj1 (bin_iff w times HW (last times 0%Z) (b1 - b0)%Z)) as X. fold b0 b1 in X. rewrite F in X. specialize (X ltac:(lia)). lia. }
  assert (AL : ascending lab). { intros i j Hij. rewrite LL in Hij. rewrite !LG by lia. nia. }
  assert (CC : bin_count (k * w) lab = bin_count (k * w) times).
  { apply Nat2Z.inj. rewrite (count_eq (k * w) lab HW' AL NL), (count_eq (k * w) times HW' HA HN), <- !hd_get. rewrite NB0, NB1. reflexivity. }
  assert (BL : bin_label (k * w) lab 0 = bin_label (k * w) times 0) by (unfold bin_label; rewrite OO, NB0; reflexivity).
  unfold resample at 1 3. rewrite CC. apply map_ext. intros n'.
  set (sm := resample nan_sum w times l).
  assert (SG : forall n, n < N -> get (n_nan : XR) sm n = (XFin (sum_in times l (lo w times n) (lo w times n + w)) : XR)).
  { intros n Hn. unfold sm. rewrite resample_get by auto. apply sum_bin; auto. }
  assert (LS : length sm = length lab) by (unfold sm; rewrite resample_length; auto).
  assert (PS : plain_series sm). { intros x Hx. apply In_get with (d := (n_nan : XR)) in Hx. destruct Hx as (n & Hn & <-). rewrite SG by lia. reflexivity. }
  rewrite !sum_bin by auto. refine (f_equal (XFin : R -> XR) _). rewrite BL.
  set (A := (bin_label (k * w) times 0 + k * w * Z.of_nat n')%Z).
  transitivity (rsum (map (fun n => if during lab A (A + k * w) n then sum_in times l (lo w times n) (lo w times n + w) else 0%R) (seq 0 N))).
  { unfold sum_in at 1. rewrite LL. apply rsum_ext. intros n Hn. apply in_seq in Hn. rewrite SG by lia. reflexivity. }
  unfold N. rewrite (bins_total w times l (during lab A (A + k * w)) (during times A (A + k * w)) HW HA HN); [reflexivity|].
  intros i n Hi [_ IB]. unfold during.
  assert (Hn : n < N). { destruct (one_bin w times HW HA HN i Hi) as (m & Hm & IM & U). fold N in Hm. rewrite (U n ltac:(split; auto)). auto. }
  rewrite LG by auto. assert (EA : exists j, A = (o + w * (k * j))%Z).
  { unfold A. unfold bin_label. fold o. exists (bin_no (k * w) times (hd 0%Z times) + Z.of_nat 0 + Z.of_nat n')%Z. ring. }
  destruct EA as [j ->]. rewrite F in *. clearbody o b0. clear - HW IB.
  assert (X : forall p, (o + w * p <= o + w * b0 + w * Z.of_nat n <-> o + w * p <= get 0 times i)%Z).
  { intros p. split; intros X; [lia|]. assert (w * (p - (b0 + Z.of_nat n)) < w * 1)%Z by lia. assert (p - (b0 + Z.of_nat n) < 1)%Z by (apply (Z.mul_lt_mono_pos_l w); lia). nia. }
  f_equal.
  - apply eq_true_iff_eq. rewrite !Z.leb_le. apply X.
  - apply eq_true_iff_eq. rewrite !Z.ltb_lt. specialize (X (k * j + k)%Z). replace (o + w * (k * j) + k * w)%Z with (o + w * (k * j + k))%Z by ring. lia.
Qed.

(** ** accumulation *)
Lemma fin_add a b : n_add (XFin a : XR) (XFin b : XR) = (XFin (a + b) : XR).
Proof. reflexivity. Qed.
Lemma fin_div a c : c <> 0%R -> n_div (XFin a : XR) (XFin c : XR) = (XFin (a / c) : XR).
Proof. intros H. change (xdiv (XFin a) (XFin c) = XFin (a / c)). unfold xdiv. rewrite Req_bool_false by auto. reflexivity. Qed.
Lemma nan_div c : n_div (XNaN : XR) (XFin c : XR) = (XNaN : XR).
Proof. change (xdiv XNaN (XFin c) = XNaN). reflexivity. Qed.
Lemma plain_cons x l : plain_series (x :: l) -> (x = (XNaN : XR) \/ exists r, x = (XFin r : XR)) /\ plain_series l.
Proof. intros H. split; [|intros y Hy; apply H; right; auto]. specialize (H x (or_introl eq_refl)). destruct x; try discriminate H; eauto. Qed.

Lemma running_length {O : numops} (l : list O) : forall acc, length (running_total acc l) = length l.
Proof. induction l as [|x l IH]; intros acc; [reflexivity|]. cbn. rewrite IH. reflexivity. Qed.

Lemma accumulation_exact c (l : list XR) : c <> 0%R -> plain_series l ->
  accumulation (XFin c : XR) l = ofR (map (fun k => rsum (map part (firstn (Datatypes.S k) l)) / c)%R (seq 0 (length l))).
Proof.
  intros HC P. unfold accumulation. change (zero : XR) with (XFin 0 : XR).
  assert (G : forall acc, running_total (XFin acc : XR) (map (fun v => n_div v (XFin c : XR)) l) = ofR (map (fun k => acc + rsum (map part (firstn (Datatypes.S k) l)) / c)%R (seq 0 (length l)))).
  { revert P. induction l as [|x l IH]; intros P acc; [reflexivity|]. apply plain_cons in P. destruct P as [Hx P].
    cbn [map length seq]. rewrite <- seq_shift, map_map. unfold ofR. cbn [map]. rewrite map_map. cbn [running_total].
    assert (EE : forall v, map (fun y => XFin (acc + (v + rsum (map part (firstn (Datatypes.S y) l))) / c)) (seq 0 (length l)) =
      map (fun y => XFin (acc + v / c + rsum (map part (firstn (Datatypes.S y) l)) / c)) (seq 0 (length l))).
    { intros v. apply map_ext. intros y. f_equal. unfold Rdiv. ring. }
    destruct Hx as [->|[r ->]].
    - rewrite nan_div. change (n_isnan (XNaN : XR)) with true. cbv iota. f_equal; [refine (f_equal XFin _); cbn; unfold Rdiv; ring|].
      etransitivity; [apply (IH P)|]. unfold ofR. rewrite map_map.
      etransitivity; [|symmetry; etransitivity; [|apply (EE 0%R)]; apply map_ext; intros y; reflexivity]. apply map_ext. intros y. f_equal. unfold Rdiv. ring.
    - rewrite fin_div by auto. change (n_isnan (XFin (r / c) : XR)) with false. cbv iota. rewrite fin_add. f_equal; [refine (f_equal XFin _); cbn; unfold Rdiv; ring|].
      etransitivity; [apply (IH P)|]. unfold ofR. rewrite map_map. symmetry. etransitivity; [|apply (EE r)]. apply map_ext; intros y; reflexivity. }
  rewrite G. unfold ofR. rewrite !map_map. apply map_ext. intros k. f_equal. ring.
Qed.

Section Grow.
Context {O : numops} (S : numsem O).
Lemma nonneg_num (x : O) : nonneg x -> n_isnan x = false.
Proof using S.
  unfold nonneg. rewrite (val_isnan _ S), (val_leb _ S). destruct (val S x); cbn; auto. rewrite (val_0 S). cbn. discriminate.
Qed.
Lemma leb_tr (x y z : O) : n_leb x y = true -> n_leb y z = true -> n_leb x z = true.
Proof using S.
  rewrite !(val_leb _ S). destruct (val S x), (val S y), (val S z); cbn; auto; try discriminate. intros H K.
  destruct (Rle_bool_spec r r0); try discriminate H. destruct (Rle_bool_spec r0 r1); try discriminate K. apply Rle_bool_true. lra.
Qed.
Lemma leb_self (x : O) : n_isnan x = false -> n_leb x x = true.
Proof using S. rewrite (val_isnan _ S), (val_leb _ S). destruct (val S x); cbn; auto; try discriminate. intros _. apply Rle_bool_true. lra. Qed.
Lemma nonneg_add (x y : O) : nonneg x -> nonneg y -> nonneg (n_add x y) /\ n_leb x (n_add x y) = true.
Proof using S.
  intros Hx Hy. assert (N : n_isnan (n_add x y) = false).
  { revert Hx Hy. unfold nonneg. rewrite (val_isnan _ S), !(val_leb _ S), (val_add _ S), (rnd_nan _ S), (val_0 S). destruct (val S x), (val S y); cbn; auto; discriminate. }
  destruct (add_grows S x y (or_intror Hx) (or_intror Hy)) as [A|[A _]]; [unfold missing in A; congruence|]. split; auto. exact (leb_tr _ _ _ Hx A).
Qed.
Lemma nonneg_zero : nonneg (zero : O).
Proof using S. destruct (rom_zero S) as [A|A]; auto. unfold missing in A. rewrite (val_isnan _ S) in A. unfold zero in A. rewrite (val_0 S) in A. discriminate A. Qed.

Lemma running_grows (l : list O) : (forall v, In v l -> rain_or_missing v) -> forall acc, nonneg acc ->
  (forall i, i < length l -> nonneg (get n_nan (running_total acc l) i) /\ n_leb acc (get n_nan (running_total acc l) i) = true) /\
  (forall i j, i <= j -> j < length l -> n_leb (get n_nan (running_total acc l) i) (get n_nan (running_total acc l) j) = true).
Proof using S.
  induction l as [|x l IH]; intros H acc HA; [split; intros; cbn [length] in *; lia|]. cbn [running_total].
  set (acc' := if n_isnan x then acc else n_add acc x). 
  assert (K : nonneg acc' /\ n_leb acc acc' = true).
  { unfold acc'. destruct (H x (or_introl eq_refl)) as [M|M].
    - unfold missing in M. rewrite M. split; auto. apply leb_self, nonneg_num; auto.
    - rewrite (nonneg_num x M). apply nonneg_add; auto. }
  destruct K as [K1 K2]. destruct (IH (fun v Hv => H v (or_intror Hv)) acc' K1) as [I1 I2]. split.
  - intros [|i] Hi; [cbn; auto|]. change (get n_nan (acc' :: running_total acc' l) (Datatypes.S i)) with (get n_nan (running_total acc' l) i).
    destruct (I1 i ltac:(cbn [length] in Hi; lia)) as [A B]. split; auto. exact (leb_tr _ _ _ K2 B).
  - intros [|i] [|j] Hij Hj; try lia; cbn [length] in Hj.
    + apply leb_self, nonneg_num. exact K1.
    + destruct (I1 j ltac:(lia)) as [A B]. exact B.
    + apply I2; lia.
Qed.

Lemma accumulation_grows (c : O) (l : list O) : positive c -> finite c -> (forall v, In v l -> rain_or_missing v) ->
  length (accumulation c l) = length l /\ (forall i, i < length l -> nonneg (get n_nan (accumulation c l) i)) /\
  (forall i j, i <= j -> j < length l -> n_leb (get n_nan (accumulation c l) i) (get n_nan (accumulation c l) j) = true).
Proof using S.
  intros P F H. unfold accumulation. rewrite running_length, map_length. split; auto.
  destruct (running_grows (map (fun v => n_div v c) l)) with (acc := (zero : O)) as [A B].
  - intros v Hv. apply in_map_iff in Hv. destruct Hv as (x & <- & Hx). destruct (H x Hx) as [M|M].
    + left. unfold missing in *. revert M. rewrite !(val_isnan _ S). intros M. destruct (proj1 (finite_val S c) F) as [r E].
      rewrite (val_div _ S) by (rewrite E; intros Q; injection Q; intros ->; unfold positive in P; rewrite (val_ltb _ S), E, (val_0 S) in P; cbn in P; destruct (Rlt_bool_spec 0 0); [lra|discriminate P]).
      rewrite (rnd_nan _ S). destruct (val S x); try discriminate M. reflexivity.
    + right. apply (div_nonneg S); auto.
  - apply nonneg_zero.
  - rewrite map_length in A, B. split; [intros i Hi; apply A; auto|exact B].
Qed.
End Grow.

(** ** sorted curve *)
Lemma sorted_insert (r : R) s m : Sorted Rle s -> exists s', sort_insert (XFin r : XR) (ofR s ++ repeat (XNaN : XR) m) = ofR s' ++ repeat (XNaN : XR) m /\ Sorted Rle s' /\ Permutation (r :: s) s'.
Proof.
  induction s as [|y s IH]; intros HS.
  - exists [r]. cbn [ofR map app]. repeat split; [|repeat constructor|auto]. destruct m; reflexivity.
  - change (ofR (y :: s)) with ((XFin y : XR) :: ofR s). cbn [app sort_insert].
    change (n_isnan (XFin r : XR)) with false. change (n_isnan (XFin y : XR)) with false. change (n_leb (XFin r : XR) (XFin y : XR)) with (Rle_bool r y). cbn [negb andb orb].
    destruct (Rle_bool_spec r y) as [L|L].
    + exists (r :: y :: s). repeat split; auto.
    + inversion HS as [|? ? HS' HD]; subst. destruct (IH HS') as (s' & E & S' & P'). exists (y :: s'). split; [|split].
      * change (ofR (y :: s')) with ((XFin y : XR) :: ofR s'). cbn [app]. f_equal. exact E.
      * constructor; auto. destruct s' as [|z s']; constructor. assert (I : In z (r :: s)) by (apply (Permutation_in z (Permutation_sym P')); left; auto).
        destruct I as [<-|I]; [lra|]. destruct s as [|u s]; [destruct I|]. inversion HD; subst. 
        assert (SS : StronglySorted Rle (u :: s)) by (apply Sorted_StronglySorted; auto; intros a b d; lra). inversion SS as [|? ? _ FA]; subst. rewrite Forall_forall in FA.
        destruct I as [<-|I]; [auto|]. specialize (FA z I). lra.
      * transitivity (y :: r :: s); [constructor|]. constructor. exact P'.
Qed.
Lemma insert_nan (s : list R) m : sort_insert (XNaN : XR) (ofR s ++ repeat (XNaN : XR) m) = ofR s ++ repeat (XNaN : XR) (Datatypes.S m).
Proof.
  induction s as [|y s IH].
  - cbn [ofR map app]. induction m as [|m IH]; [reflexivity|]. cbn [repeat sort_insert]. change (n_isnan (XNaN : XR)) with true. cbn [negb andb]. rewrite IH. reflexivity.
  - change (ofR (y :: s)) with ((XFin y : XR) :: ofR s). cbn [app sort_insert]. change (n_isnan (XNaN : XR)) with true. cbn [negb andb]. f_equal. exact IH.
Qed.
Lemma np_sort_exact (c : R) (l : list XR) : c <> 0%R -> plain_series l -> exists s, Sorted Rle s /\ Permutation s (map (fun x => x / c)%R (numbers l)) /\
  np_sort (map (fun v => n_div v (XFin c : XR)) l) = ofR s ++ repeat (XNaN : XR) (missing_count l).
Proof.
  intros HC. induction l as [|x l IH]; intros P; [exists []; repeat split; auto; constructor|]. apply plain_cons in P. destruct P as [Hx P].
  destruct (IH P) as (s & S' & Q & E). cbn [map]. change (np_sort (n_div x (XFin c : XR) :: map (fun v => n_div v (XFin c : XR)) l)) with (sort_insert (n_div x (XFin c : XR)) (np_sort (map (fun v => n_div v (XFin c : XR)) l))).
  rewrite E. destruct Hx as [->|[r ->]].
  - exists s. rewrite nan_div, insert_nan. auto.
  - rewrite fin_div by auto. destruct (sorted_insert (r / c) s (missing_count l) S') as (s' & E' & SS & PP). exists s'. split; [exact SS|]. split; [|exact E'].
    transitivity ((r / c)%R :: s); [symmetry; exact PP|]. change (numbers ((XFin r : XR) :: l)) with (r :: numbers l). cbn [map]. constructor. exact Q.
Qed.
Lemma cumsum_nan m : np_cumsum (XNaN : XR) (repeat (XNaN : XR) m) = repeat (XNaN : XR) m.
Proof. induction m as [|m IH]; [reflexivity|]. cbn [repeat np_cumsum]. change (n_add (XNaN : XR) (XNaN : XR)) with (XNaN : XR). rewrite IH. reflexivity. Qed.
Lemma cumsum_fin s m : forall a, np_cumsum (XFin a : XR) (ofR s ++ repeat (XNaN : XR) m) = ofR (map (fun x => a + x)%R (partial_sums s)) ++ repeat (XNaN : XR) m.
Proof.
  induction s as [|x s IH]; intros a.
  - cbn [ofR map app partial_sums seq length]. destruct m as [|m]; [reflexivity|]. cbn [repeat np_cumsum]. change (n_add (XFin a : XR) (XNaN : XR)) with (XNaN : XR). rewrite cumsum_nan. reflexivity.
  - change (ofR (x :: s)) with ((XFin x : XR) :: ofR s). cbn [app np_cumsum]. rewrite fin_add, IH. unfold partial_sums. cbn [length seq]. rewrite <- seq_shift. cbn [map]. rewrite !map_map.
    unfold ofR. cbn [map app]. f_equal; [refine (f_equal XFin _); cbn; ring|]. f_equal. rewrite !map_map. apply map_ext. intros k. refine (f_equal XFin _).
    change (firstn (Datatypes.S (Datatypes.S k)) (x :: s)) with (x :: firstn (Datatypes.S k) s). rewrite rsum_cons. ring.
Qed.
Lemma curve_exact (c : R) (l : list XR) : c <> 0%R -> plain_series l -> exists s, Sorted Rle s /\ Permutation s (map (fun x => x / c)%R (numbers l)) /\
  sorted_curve (XFin c : XR) l = ofR (partial_sums s) ++ repeat (XNaN : XR) (missing_count l).
Proof.
  intros HC P. destruct (np_sort_exact c l HC P) as (s & S' & Q & E). exists s. split; [auto|]. split; [auto|]. unfold sorted_curve. rewrite E.
  change (zero : XR) with (XFin 0 : XR). rewrite cumsum_fin. do 2 f_equal. rewrite <- (map_id (partial_sums s)) at 2. apply map_ext. intros x. ring.
Qed.

Lemma sorted_unique (s s' : list R) : Sorted Rle s -> Sorted Rle s' -> Permutation s s' -> s = s'.
Proof.
  intros H K. apply Sorted_StronglySorted in H; [|intros a b d; lra]. apply Sorted_StronglySorted in K; [|intros a b d; lra]. revert s' K.
  induction s as [|x s IH]; intros s' K P; [apply Permutation_nil in P; auto|]. destruct s' as [|y s']; [apply Permutation_sym, Permutation_nil in P; discriminate|].
  inversion H as [|? ? H1 H2]; subst. inversion K as [|? ? K1 K2]; subst. rewrite Forall_forall in H2, K2.
  assert (x = y).
  { assert (I : In x (y :: s')) by (apply (Permutation_in x P); left; auto). assert (J : In y (x :: s)) by (apply (Permutation_in y (Permutation_sym P)); left; auto).
    destruct I as [E|I]; auto. destruct J as [E|J]; auto. specialize (H2 y J). specialize (K2 x I). lra. }
  subst y. f_equal. apply IH; auto. apply Permutation_cons_inv in P. exact P.
Qed.
Lemma filter_perm {A} (f : A -> bool) l l' : Permutation l l' -> Permutation (filter f l) (filter f l').
Proof.
  induction 1 as [|x l l' H IH|x y l|l l' l'' H1 IH1 H2 IH2]; cbn; auto.
  - destruct (f x); auto.
  - destruct (f x), (f y); auto. constructor.
  - etransitivity; eauto.
Qed.
Lemma curve_order (c : R) (l l' : list XR) : c <> 0%R -> plain_series l -> Permutation l l' -> sorted_curve (XFin c : XR) l = sorted_curve (XFin c : XR) l'.
Proof.
  intros HC P Q. assert (P' : plain_series l') by (intros x Hx; apply P; apply (Permutation_in x (Permutation_sym Q)); auto).
  destruct (curve_exact c l HC P) as (s & S1 & Q1 & ->). destruct (curve_exact c l' HC P') as (s' & S2 & Q2 & ->).
  assert (E : s = s').
  { apply sorted_unique; auto. rewrite Q1, Q2. apply Permutation_map. unfold numbers. apply Permutation_map, filter_perm; auto. }
  subst s'. f_equal. f_equal. unfold missing_count. apply Permutation_length, filter_perm; auto.
Qed.

(** ** bins without a sample *)
Section Gap.
Context {O : numops} (S : numsem O).
Lemma measured_nil w times (l : list O) n : (0 < w)%Z -> length l = length times -> measured_in times l (lo w times n) (lo w times n + w) = 0 ->
  filter (fun v => negb (n_isnan v)) (bin_values w times l n) = [].
Proof using. clear S. intros HW E M. rewrite values_during by auto. unfold measured_in in M. apply length_zero_iff_nil in M. rewrite M. reflexivity. Qed.
Lemma zero_over (c : O) : positive c -> n_isnan c = false -> n_eqb (n_div zero c) (zero : O) = true \/ n_isinf c = true.
Proof using S.
  intros P N. destruct (n_isinf c) eqn:I; [right; auto|left]. destruct (proj1 (finite_val S c) (conj N I)) as [r E].
  assert (R0 : (0 < r)%R). { unfold positive in P. rewrite (val_ltb _ S), E, (val_0 S) in P. cbn in P. destruct (Rlt_bool_spec 0 r); [auto|discriminate P]. }
  unfold zero. rewrite (val_eqb _ S), (val_0 S), (val_div _ S) by (rewrite E; intros Q; injection Q; lra). rewrite E, (val_0 S).
  replace (xdiv (XFin 0) (XFin r)) with (XFin 0) by (unfold xdiv; rewrite Req_bool_false by lra; f_equal; unfold Rdiv; ring).
  rewrite <- (val_0 S), (rnd_val _ S), (val_0 S). cbn. apply Req_bool_true. reflexivity.
Qed.
Lemma gap_sum w (c : O) times (l : list O) a N n : (0 < w)%Z -> positive c -> finite c -> ascending times -> times <> [] -> length l = length times -> bins w times a N -> n < N ->
  measured_in times l (a + w * Z.of_nat n) (a + w * Z.of_nat n + w) = 0 ->
  n_eqb (get n_nan (rain_sums w c times l) n) zero = true /\ missing (get n_nan (rain_means w times l) n).
Proof using S.
  intros HW P [F1 F2] HA HN E B Hn M. destruct (bins_unique w times HW HN a N _ _ B (bins_here w times HW HA HN)) as [-> ->].
  apply measured_nil in M; auto. split.
  - unfold rain_sums. rewrite get_map with (d := n_nan) by (rewrite resample_length; auto). rewrite resample_get by auto. unfold nan_sum. rewrite M. cbn [n_sum fold_left].
    destruct (zero_over c P F1); auto; congruence.
  - unfold rain_means. rewrite resample_get by auto. unfold nan_mean. rewrite M. exact (mean_nil S).
Qed.
End Gap.

Lemma reference_exact w c times (l : list XR) a N : (0 < w)%Z -> ascending times -> times <> [] -> length l = length times -> plain_series l -> bins w times a N ->
  exists s, reference_rates w (XFin c : XR) times l = ofR s /\ length s = N /\
  (forall n, n < N -> rget s n = (sum_in times l (a + w * Z.of_nat n) (a + w * Z.of_nat n + w) * c)%R) /\
  (rsum s = rsum (numbers l) * c)%R.
Proof.
  intros HW HA HN E P B. destruct (sums_exact w 1 times l a N HW ltac:(lra) HA HN E P B) as (s & E1 & L1 & G1 & T1).
  exists (map (fun x => x * c)%R s). split; [|split; [|split]].
  - assert (E2 : resample nan_sum w times l = ofR s).
    { rewrite <- E1. unfold rain_sums. rewrite <- (map_id (resample nan_sum w times l)) at 1. unfold resample. rewrite !map_map. apply map_ext. intros n. rewrite sum_bin by auto. rewrite fin_div by lra. refine (f_equal (XFin : R -> XR) _). lra. }
    unfold reference_rates. rewrite E2. unfold ofR. rewrite !map_map. reflexivity.
  - rewrite map_length. exact L1.
  - intros n Hn. unfold rget. rewrite get_map with (d := 0%R) by lia. change (get 0%R s n) with (rget s n). rewrite G1 by auto. lra.
  - replace (rsum (numbers l)) with (rsum s) by lra. clear. induction s as [|x s IH]; [cbn; lra|]. cbn [map]. rewrite !rsum_cons, IH. lra.
Qed.
