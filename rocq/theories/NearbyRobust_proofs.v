(** * Wrong and inaccurate levels in the nearby-link approach *)
From Coq Require Import List ZArith Bool Reals Lra Lia Arith Permutation.
From Flocq Require Import Core.
From Verif Require Import Base Num NumF64 NumList RealSpec RealStat Libm KR_model Median Ulp64 HaversineFloat_spec FloatErr_spec FloatErr_proofs Grid64_proofs RainFloat_proofs
  MeasErr_spec Pastorek_spec NearbyRain_model NearbyRain_spec NearbyRain_proofs ObsChain_proofs NearbyRobust_spec.
Import ListNotations.
Local Open Scope nat_scope.

(** ** counting *)
Section Count.
Context {A : Type}.
Lemma count_perm (f : A -> bool) l l' : Permutation l l' -> length (filter f l) = length (filter f l').
Proof. induction 1; simpl; auto; try (destruct (f x)); try (destruct (f y)); simpl; auto; congruence. Qed.
Lemma filter_bound (f : A -> bool) l : length (filter f l) <= length l.
Proof. induction l as [|x l IH]; simpl; auto. destruct (f x); simpl; lia. Qed.
Lemma filter_all (f : A -> bool) l : (forall x, In x l -> f x = true) -> length (filter f l) = length l.
Proof. induction l as [|x l IH]; intros H; simpl; auto. rewrite (H x) by (left; auto). simpl. rewrite IH; auto. intros; apply H; right; auto. Qed.
Lemma filter_nothing (f : A -> bool) l : (forall x, In x l -> f x = false) -> length (filter f l) = 0.
Proof. induction l as [|x l IH]; intros H; simpl; auto. rewrite (H x) by (left; auto). apply IH. intros; apply H; right; auto. Qed.
Lemma count_split (f : A -> bool) k l : length (filter f l) = length (filter f (firstn k l)) + length (filter f (skipn k l)).
Proof. rewrite <- (firstn_skipn k l) at 1. rewrite filter_app, app_length. reflexivity. Qed.
Lemma in_firstn_get (d : A) k l x : In x (firstn k l) -> exists i, i < k /\ i < length l /\ get d l i = x.
Proof.
  intros H. apply (In_nth _ _ d) in H as (i & Hi & E). rewrite firstn_length in Hi. exists i. split; [lia|]. split; [lia|].
  unfold get. rewrite <- E. rewrite <- (firstn_skipn k l) at 1. apply app_nth1. rewrite firstn_length. lia.
Qed.
Lemma in_skipn_get (d : A) k l x : In x (skipn k l) -> exists i, k <= i < length l /\ get d l i = x.
Proof.
  intros H. apply (In_nth _ _ d) in H as (i & Hi & E). rewrite skipn_length in Hi. exists (k + i). split; [lia|].
  unfold get. rewrite <- E. rewrite <- (firstn_skipn k l) at 1. rewrite app_nth2; rewrite firstn_length; [|lia]. f_equal. lia.
Qed.
Lemma count_low (f : A -> bool) (d : A) l k : k <= length l -> (forall i, i < k -> f (get d l i) = true) -> k <= length (filter f l).
Proof.
  intros Hk H. rewrite (count_split f k). rewrite filter_all; [rewrite firstn_length; lia|].
  intros x Hx. apply (in_firstn_get d) in Hx as (i & Hi & _ & <-). auto.
Qed.
Lemma count_high (f : A -> bool) (d : A) l k : k <= length l -> (forall i, k <= i < length l -> f (get d l i) = true) -> length l - k <= length (filter f l).
Proof.
  intros Hk H. rewrite (count_split f k). rewrite (filter_all f (skipn k l)); [rewrite skipn_length; lia|].
  intros x Hx. apply (in_skipn_get d) in Hx as (i & Hi & <-). auto.
Qed.
Lemma count_few (f : A -> bool) (d : A) l k : (forall i, k <= i < length l -> f (get d l i) = false) -> length (filter f l) <= k.
Proof.
  intros H. rewrite (count_split f k). rewrite (filter_nothing f (skipn k l)); [|intros x Hx; apply (in_skipn_get d) in Hx as (i & Hi & <-); auto].
  pose proof (filter_bound f (firstn k l)). rewrite firstn_length in *. lia.
Qed.
End Count.
Lemma count_pairs {A} (f g : A -> bool) (d : A) : forall l l', length l' = length l -> (forall i, i < length l -> f (get d l i) = true -> g (get d l' i) = true) ->
  length (filter f l) <= length (filter g l').
Proof.
  induction l as [|x l IH]; intros [|y l'] E H; try discriminate; [reflexivity|]. simpl in E. simpl.
  pose proof (H 0 ltac:(simpl; lia)) as H0. change (get d (x :: l) 0) with x in H0. change (get d (y :: l') 0) with y in H0.
  assert (K : length (filter f l) <= length (filter g l')) by (apply IH; [lia|]; intros i Hi; apply (H (Datatypes.S i)); simpl; lia).
  destruct (f x); [rewrite H0 by auto; simpl; lia|]. destruct (g y); simpl; lia.
Qed.

(** ** a minority of wrong levels *)
Section Any.
Context {O : numops} (S : numsem O).
Variables (lo hi : O) (v s : list O).
Hypothesis P : Permutation s v.
Hypothesis A : forall i j, i <= j -> j < length s -> n_leb (get n_nan s i) (get n_nan s j) = true.
Hypothesis M : 2 * length (filter (outside lo hi) v) < length v.
Let LV : length s = length v := Permutation_length P.
Let MS : 2 * length (filter (outside lo hi) s) < length s.
Proof. rewrite LV, (count_perm _ _ _ P). exact M. Qed.

Lemma at_least k : 2 * (k + 1) >= length s -> k < length s -> n_leb lo (get n_nan s k) = true.
Proof using S A MS.
  intros H Hk. destruct (n_leb lo (get n_nan s k)) eqn:E; [reflexivity|]. exfalso.
  assert (k + 1 <= length (filter (outside lo hi) s)); [|lia].
  apply (count_low _ n_nan); [lia|]. intros i Hi. unfold outside. destruct (n_leb lo (get n_nan s i)) eqn:E'; [|reflexivity].
  rewrite (leb_trans S lo (get n_nan s i) (get n_nan s k)) in E; auto; [discriminate|]. apply A; lia.
Qed.
Lemma at_most k : 2 * k <= length s -> k < length s -> n_leb (get n_nan s k) hi = true.
Proof using S A MS.
  intros H Hk. destruct (n_leb (get n_nan s k) hi) eqn:E; [reflexivity|]. exfalso.
  assert (length s - k <= length (filter (outside lo hi) s)); [|lia].
  apply (count_high _ n_nan); [lia|]. intros i Hi. unfold outside. destruct (n_leb (get n_nan s i) hi) eqn:E'; [|rewrite andb_false_r; reflexivity].
  rewrite (leb_trans S (get n_nan s k) (get n_nan s i) hi) in E; auto; [discriminate|]. apply A; lia.
Qed.
End Any.

(** the rounded mean of two numbers between floats lies between them *)
Lemma mean_between (a b lo hi : F64) rl rh : is_num lo rl -> is_num hi rh -> (Rabs rl <= bpow radix2 900)%R -> (Rabs rh <= bpow radix2 900)%R ->
  n_leb lo a = true -> n_leb a hi = true -> n_leb lo b = true -> n_leb b hi = true ->
  n_leb lo (n_div (n_add a b) (n_ofZ 2)) = true /\ n_leb (n_div (n_add a b) (n_ofZ 2)) hi = true.
Proof.
  intros IL IH BL BH A1 A2 B1 B2.
  assert (NUM : forall x : F64, n_leb lo x = true -> n_leb x hi = true -> exists r, is_num x r /\ (rl <= r <= rh)%R).
  { intros x X1 X2. rewrite (val_leb _ F64sem) in X1, X2. change (val F64sem lo) with (f_val lo) in X1. change (val F64sem hi) with (f_val hi) in X2.
    change (val F64sem x) with (f_val x) in *. unfold is_num in *. rewrite IL in X1. rewrite IH in X2. destruct (f_val x) as [| |r|]; try discriminate.
    exists r. split; [reflexivity|]. simpl in X1, X2. destruct (Rle_bool_spec rl r); [|discriminate]. destruct (Rle_bool_spec r rh); [|discriminate]. lra. }
  destruct (NUM a A1 A2) as (ra & IA & RA). destruct (NUM b B1 B2) as (rb & IB & RB).
  assert (FL : generic_format radix2 fexp64 rl) by (apply (format_val lo); auto).
  assert (FH : generic_format radix2 fexp64 rh) by (apply (format_val hi); auto).
  assert (BG : (2 * bpow radix2 900 <= big)%R).
  { unfold big. change 2%R with (bpow radix2 1). rewrite <- bpow_plus. apply bpow_le. lia. }
  apply Rabs_le_inv in BL. apply Rabs_le_inv in BH.
  assert (IS : is_num (n_add a b) (rnd64 (ra + rb))) by (apply is_add; auto; apply Rabs_le; lra).
  assert (SL : (2 * rl <= rnd64 (ra + rb))%R) by (rewrite <- (rnd64_generic (2 * rl)) by (apply format_double; auto); apply round_le; try apply _; lra).
  assert (SH : (rnd64 (ra + rb) <= 2 * rh)%R) by (rewrite <- (rnd64_generic (2 * rh)) by (apply format_double; auto); apply round_le; try apply _; lra).
  assert (I2 : is_num (n_ofZ 2 : F64) 2) by (apply (f_val_ofZ_exact 2); compute; discriminate).
  assert (IM : is_num (n_div (n_add a b) (n_ofZ 2)) (rnd64 (rnd64 (ra + rb) / 2))) by (apply is_div; auto; try lra; apply Rabs_le; lra).
  assert (ML : (rl <= rnd64 (rnd64 (ra + rb) / 2))%R) by (rewrite <- (rnd64_generic rl) at 1 by auto; apply round_le; try apply _; lra).
  assert (MH : (rnd64 (rnd64 (ra + rb) / 2) <= rh)%R) by (rewrite <- (rnd64_generic rh) by auto; apply round_le; try apply _; lra).
  rewrite (num_leb _ _ _ _ IL IM), (num_leb _ _ _ _ IM IH). split; apply Rle_bool_true; auto.
Qed.

Lemma minority_median (lo hi : F64) rl rh (v : list F64) m : is_num lo rl -> is_num hi rh -> (Rabs rl <= bpow radix2 900)%R -> (Rabs rh <= bpow radix2 900)%R ->
  2 * length (filter (outside lo hi) v) < length v -> is_median v m -> n_leb lo m = true /\ n_leb m hi = true.
Proof.
  intros IL IH BL BH MI (s & P & A & H1 & H2). pose proof (Permutation_length P) as LP.
  destruct (Nat.Even_or_Odd (length s)) as [[k E]|[k E]].
  - destruct k as [|k]; [lia|]. rewrite (H2 k) by lia.
    apply (mean_between _ _ lo hi rl rh); auto.
    + apply (at_least F64sem lo hi v s P A MI); lia.
    + apply (leb_trans F64sem _ (get n_nan s (k + 1))); [apply A; lia|]. apply (at_most F64sem lo hi v s P A MI); lia.
    + apply (leb_trans F64sem _ (get n_nan s k)); [|apply A; lia]. apply (at_least F64sem lo hi v s P A MI); lia.
    + apply (at_most F64sem lo hi v s P A MI); lia.
  - rewrite (H1 k) by lia. split; [apply (at_least F64sem lo hi v s P A MI)|apply (at_most F64sem lo hi v s P A MI)]; lia.
Qed.

Lemma reference_minority (pmin pmax wet : list F64) n mp (lo hi : F64) rl rh :
  length pmin = length wet -> length pmax = length wet -> 1 <= mp <= n -> n <= length wet ->
  is_num lo rl -> is_num hi rh -> (Rabs rl <= bpow radix2 900)%R -> (Rabs rh <= bpow radix2 900)%R ->
  exists pref, nearby_determine_reference_level pmin pmax wet n mp = Ok pref /\ length pref = length wet /\
  forall t, t < length wet -> let v := dry_levels pmin pmax wet n t in
    mp <= length v -> 2 * length (filter (outside lo hi) v) < length v ->
    n_leb lo (get n_nan pref t) = true /\ n_leb (get n_nan pref t) hi = true.
Proof.
  intros L1 L2 H1 H2 IL IH BL BH. destruct (reference_level F64sem pmin pmax wet n mp L1 L2 H1 H2) as (pref & E & LP & G).
  exists pref. split; [exact E|]. split; [exact LP|]. intros t Ht v Hm HC. destruct (G t Ht) as [_ M]. apply (minority_median lo hi rl rh v); auto.
Qed.

(** ** inaccurate levels, exact arithmetic *)
Local Open Scope R_scope.
Lemma order_close q (v v' s s' : list R) k : length v' = length v -> (forall i, (i < length v)%nat -> rget v' i <= rget v i + q) ->
  Permutation s v -> Permutation s' v' ->
  (forall i j, (i <= j)%nat -> (j < length s)%nat -> rget s i <= rget s j) ->
  (forall i j, (i <= j)%nat -> (j < length s')%nat -> rget s' i <= rget s' j) ->
  (k < length s)%nat -> rget s' k <= rget s k + q.
Proof.
  intros LV H P P' A A' Hk. pose proof (Permutation_length P) as LP. pose proof (Permutation_length P') as LP'.
  destruct (Rle_or_lt (rget s' k) (rget s k + q)) as [K|K]; [exact K|]. exfalso.
  assert (C1 : (k + 1 <= length (filter (fun x => Rle_bool x (rget s k)) s))%nat).
  { apply (count_low _ 0); [lia|]. intros i Hi. apply Rle_bool_true. apply (A i k); lia. }
  assert (C2 : (length (filter (fun x => Rle_bool x (rget s k)) v) <= length (filter (fun x => Rle_bool x (rget s k + q)) v'))%nat).
  { apply (count_pairs _ _ 0); auto. intros i Hi F. destruct (Rle_bool_spec (get 0 v i) (rget s k)) as [F'|]; [|discriminate].
    apply Rle_bool_true. specialize (H i Hi). unfold rget in *. lra. }
  assert (C3 : (length (filter (fun x => Rle_bool x (rget s k + q)) s') <= k)%nat).
  { apply (count_few _ 0). intros i Hi. apply Rle_bool_false. pose proof (A' k i ltac:(lia) ltac:(lia)). unfold rget in *. lra. }
  rewrite (count_perm _ _ _ P) in C1. rewrite (count_perm _ _ _ P') in C3. lia.
Qed.

Lemma median_sorted (v : list R) (m : XR) : is_median (ofR v) m -> exists s, Permutation s v /\
  (forall i j, (i <= j)%nat -> (j < length s)%nat -> rget s i <= rget s j) /\
  (forall k, length s = (2 * k + 1)%nat -> m = XFin (rget s k)) /\
  (forall k, length s = (2 * k + 2)%nat -> m = XFin ((rget s k + rget s (k + 1)) / 2)).
Proof.
  intros (sx & P & A & H1 & H2). unfold ofR in P. apply Permutation_map_inv in P as (s & -> & P). fold (ofR s) in *. rewrite ofR_length in *.
  exists s. split; [apply Permutation_sym; auto|]. split; [|split].
  - intros i j Hi Hj. specialize (A i j Hi Hj). rewrite !ofR_get in A by lia. simpl in A. destruct (Rle_bool_spec (rget s i) (rget s j)); [auto|discriminate].
  - intros k E. rewrite (H1 k E). apply ofR_get. lia.
  - intros k E. rewrite (H2 k E). rewrite !ofR_get by lia.
    change (n_div (n_add (XFin (rget s k) : XR) (XFin (rget s (k + 1)) : XR)) (n_ofZ 2)) with (xdiv (XFin (rget s k + rget s (k + 1))) (XFin 2) : XR).
    apply KR_proofs.xdiv_fin. lra.
Qed.
Lemma median_close q (v v' : list R) (m m' : XR) : v <> [] -> length v' = length v -> (forall i, (i < length v)%nat -> Rabs (rget v' i - rget v i) <= q) ->
  is_median (ofR v) m -> is_median (ofR v') m' -> near q m m'.
Proof.
  intros NE LV H M M'. apply median_sorted in M as (s & P & A & H1 & H2). apply median_sorted in M' as (s' & P' & A' & H1' & H2').
  pose proof (Permutation_length P) as LP. pose proof (Permutation_length P') as LP'.
  assert (C : forall k, (k < length s)%nat -> rget s' k <= rget s k + q).
  { intros k Hk. apply (order_close q v v' s s'); auto. intros i Hi. specialize (H i Hi). apply Rabs_le_inv in H. lra. }
  assert (C' : forall k, (k < length s)%nat -> rget s k <= rget s' k + q).
  { intros k Hk. apply (order_close q v' v s' s); auto; [|lia]. intros i Hi. specialize (H i ltac:(lia)). apply Rabs_le_inv in H. lra. }
  assert (length v <> 0%nat) by (destruct v; [congruence|simpl; lia]). right.
  destruct (Nat.Even_or_Odd (length s)) as [[k E]|[k E]].
  - destruct k as [|k]; [lia|]. eexists _, _. split; [apply (H2 k); lia|]. split; [apply (H2' k); lia|].
    pose proof (C k ltac:(lia)). pose proof (C (k + 1)%nat ltac:(lia)). pose proof (C' k ltac:(lia)). pose proof (C' (k + 1)%nat ltac:(lia)). apply Rabs_le. lra.
  - eexists _, _. split; [apply (H1 k); lia|]. split; [apply (H1' k); lia|].
    pose proof (C k ltac:(lia)). pose proof (C' k ltac:(lia)). apply Rabs_le. lra.
Qed.

Lemma level_near q (pmin pmin' pmax pmax' : list XR) k : close_records q pmin pmin' -> close_records q pmax pmax' ->
  near q (level pmin pmax k) (level pmin' pmax' k).
Proof.
  intros [_ H1] [_ H2]. specialize (H1 k). specialize (H2 k). unfold level. fold XR in *.
  destruct H1 as [[-> ->]|(r & r' & -> & -> & D1)]; [left; split; reflexivity|].
  destruct H2 as [[-> ->]|(u & u' & -> & -> & D2)]; [left; split; reflexivity|].
  right. exists ((r + u) / 2), ((r' + u') / 2).
  change (n_div (n_add (XFin r : XR) (XFin u : XR)) (n_ofZ 2)) with (xdiv (XFin (r + u)) (XFin 2) : XR).
  change (n_div (n_add (XFin r' : XR) (XFin u' : XR)) (n_ofZ 2)) with (xdiv (XFin (r' + u')) (XFin 2) : XR).
  rewrite !KR_proofs.xdiv_fin by lra. split; [reflexivity|]. split; [reflexivity|]. apply Rabs_le_inv in D1, D2. apply Rabs_le. lra.
Qed.
Lemma dry_levels_close q (pmin pmin' pmax pmax' wet : list XR) n t : close_records q pmin pmin' -> close_records q pmax pmax' ->
  exists v v', dry_levels pmin pmax wet n t = ofR v /\ dry_levels pmin' pmax' wet n t = ofR v' /\ length v' = length v /\
    forall i, (i < length v)%nat -> Rabs (rget v' i - rget v i) <= q.
Proof.
  intros H1 H2. unfold dry_levels. induction (seq (t + 1 - n) (t + 1 - (t + 1 - n))) as [|k ks (v & v' & E & E' & LV & D)].
  - exists [], []. split; [reflexivity|]. split; [reflexivity|]. split; [reflexivity|]. intros i Hi. simpl in Hi. lia.
  - cbn [filter]. destruct (level_near q pmin pmin' pmax pmax' k H1 H2) as [[EN EN']|(r & r' & ER & ER' & DR)].
    + rewrite EN, EN'. change (negb (n_isnan (XNaN : XR))) with false. rewrite andb_false_r. exists v, v'. auto.
    + rewrite ER, ER'. change (negb (n_isnan (XFin r : XR))) with true. change (negb (n_isnan (XFin r' : XR))) with true. rewrite andb_true_r.
      destruct (n_eqb (get n_nan wet k) (n_ofZ 0)).
      * cbn [map]. rewrite ER, ER', E, E'. exists (r :: v), (r' :: v'). split; [reflexivity|]. split; [reflexivity|]. split; [simpl; lia|].
        intros [|i] Hi; [exact DR|]. apply (D i). simpl in Hi. lia.
      * exists v, v'. auto.
Qed.

Lemma reference_close q (pmin pmin' pmax pmax' wet : list XR) n mp : close_records q pmin pmin' -> close_records q pmax pmax' ->
  length pmin = length wet -> length pmax = length wet -> (1 <= mp <= n)%nat -> (n <= length wet)%nat ->
  exists pref pref', nearby_determine_reference_level pmin pmax wet n mp = Ok pref /\ nearby_determine_reference_level pmin' pmax' wet n mp = Ok pref' /\
    length pref = length wet /\ close_records q pref pref'.
Proof.
  intros C1 C2 L1 L2 H1 H2. destruct (reference_level XRsem pmin pmax wet n mp L1 L2 H1 H2) as (pref & E & LP & G).
  destruct (reference_level XRsem pmin' pmax' wet n mp) as (pref' & E' & LP' & G'); [destruct C1; congruence|destruct C2; congruence|auto|auto|].
  exists pref, pref'. split; [exact E|]. split; [exact E'|]. split; [exact LP|]. split; [congruence|]. intros k.
  destruct (Nat.lt_ge_cases k (length wet)) as [Hk|Hk]; [|left; split; unfold get; rewrite nth_overflow by lia; reflexivity].
  destruct (G k Hk) as [G1 G2]. destruct (G' k Hk) as [G1' G2'].
  destruct (dry_levels_close q pmin pmin' pmax pmax' wet n k C1 C2) as (v & v' & EV & EV' & LV & D). rewrite EV in G1, G2. rewrite EV' in G1', G2'. rewrite ofR_length in *.
  destruct (Nat.lt_ge_cases (length v) mp) as [Hm|Hm].
  - left. split; [apply G1; auto|apply G1'; lia].
  - apply (median_close q v v'); auto; [|apply G2'; lia]. intros ->. simpl in Hm. lia.
Qed.

(** ** attenuation and rain rate *)
Lemma corrected_near q (pmin pmin' pmax pmax' wet pref pref' : list XR) t : close_records q pmin pmin' -> close_records q pmax pmax' -> close_records q pref pref' ->
  length pmin = length wet -> length pmax = length wet -> length pref = length wet -> (t < length wet)%nat ->
  (forall x y, get n_nan pmin t = XFin x -> get n_nan pmax t = XFin y -> x <= y) ->
  (forall x y, get n_nan pmin' t = XFin x -> get n_nan pmax' t = XFin y -> x <= y) ->
  (get n_nan pmin t = XNaN <-> get n_nan pmax t = XNaN) ->
  forall p, get n_nan pref t = XFin p ->
  exists p' x x' m m', get n_nan pref' t = XFin p' /\
    get n_nan (fst (nearby_correct_received_signals pmin pmax wet pref)) t = XFin x /\ get n_nan (snd (nearby_correct_received_signals pmin pmax wet pref)) t = XFin m /\
    get n_nan (fst (nearby_correct_received_signals pmin' pmax' wet pref')) t = XFin x' /\ get n_nan (snd (nearby_correct_received_signals pmin' pmax' wet pref')) t = XFin m' /\
    Rabs ((p' - x') - (p - x)) <= 2 * q /\ Rabs ((p' - m') - (p - m)) <= 2 * q /\ 0 <= q.
Proof.
  intros [LA CA] [LB CB] [LC CC] L1 L2 L3 Ht OR OR' MI p Ep.
  destruct (correct_signals XRsem pmin pmax wet pref (length wet)) as (cmin & cmax & E & _ & _ & G); auto.
  destruct (correct_signals XRsem pmin' pmax' wet pref' (length wet)) as (cmin' & cmax' & E' & _ & _ & G'); try congruence.
  rewrite E, E'. cbn [fst snd]. destruct (G t Ht) as (G1 & G2 & _). destruct (G' t Ht) as (G1' & G2' & _). cbv zeta in *.
  specialize (CA t). specialize (CB t). specialize (CC t).
  destruct CC as [[CC _]|(p0 & p' & CC & EP' & DP)]; [congruence|]. rewrite Ep in CC. injection CC as <-.
  assert (Q0 : 0 <= q) by (pose proof (Rabs_pos (p' - p)); lra).
  rewrite G1, G2, G1', G2', Ep, EP'. exists p'.
  destruct CA as [[NA NA']|(u & u' & EU & EU' & DU)].
  - rewrite NA, NA'. change (n_ltb (XNaN : XR) (XFin p : XR)) with false. change (n_ltb (XNaN : XR) (XFin p' : XR)) with false. rewrite !andb_false_r. cbn [andb].
    exists p, p', p, p'. do 5 (split; [reflexivity|]). split; [|split; [|exact Q0]]; apply Rabs_le; lra.
  - destruct CB as [[NB _]|(w & w' & EW & EW' & DW)]; [apply MI in NB; congruence|].
    pose proof (OR u w EU EW) as O1. pose proof (OR' u' w' EU' EW') as O2.
    rewrite EU, EU', EW, EW'. change (n_ltb (XFin u : XR) (XFin p : XR)) with (Rlt_bool u p). change (n_ltb (XFin u' : XR) (XFin p' : XR)) with (Rlt_bool u' p').
    change (n_ltb (XFin w : XR) (XFin p : XR)) with (Rlt_bool w p). change (n_ltb (XFin w' : XR) (XFin p' : XR)) with (Rlt_bool w' p').
    apply Rabs_le_inv in DP, DU, DW.
    destruct (n_eqb (get n_nan wet t) (n_ofZ 1)); cbn [andb].
    + destruct (Rlt_bool_spec u p), (Rlt_bool_spec u' p'), (Rlt_bool_spec w p), (Rlt_bool_spec w' p'); cbn [andb];
        try (exfalso; lra); (eexists _, _, _, _; do 5 (split; [reflexivity|]); split; [|split; [|exact Q0]]; apply Rabs_le; lra).
    + eexists _, _, _, _. do 5 (split; [reflexivity|]). split; [|split; [|exact Q0]]; apply Rabs_le; lra.
Qed.

Lemma retrieval_at cubic (pref cmin cmax F : list XR) (len a b waa alpha : R) thr ap :
  length cmin = length pref -> length cmax = length pref -> length F = length pref ->
  0 < len -> 0 < a -> 0 < b ->
  exists rain, nearby_rainfall_retrival XRm cubic pref cmin cmax F (XFin len : XR) None None
     (Some (CScalar (XFin a : XR))) (Some (CScalar (XFin b : XR))) ap (XFin waa : XR) (XFin alpha : XR) thr = Ok rain /\ length rain = length pref /\
  forall t p x m, (t < length pref)%nat -> unfiltered F thr t ->
    get n_nan pref t = XFin p -> get n_nan cmin t = XFin x -> get n_nan cmax t = XFin m ->
    get n_nan rain t = XFin (mixed_rate alpha a b len p x m waa).
Proof.
  intros L2 L3 L4 Hl Ha Hb.
  destruct (retrieval_core XRm cubic pref cmin cmax F (XFin len : XR) (CScalar (XFin a : XR)) (CScalar (XFin b : XR))
    (XFin a : XR) (n_div one (XFin b : XR)) (XFin waa : XR) (XFin alpha : XR) thr ap (length pref)) as (rain & E & LR & G); auto.
  { apply (KR_proofs.coef_inv_scalar XRsem). apply KR_proofs.pos_XR; auto. }
  exists rain. split; [exact E|]. split; [exact LR|]. intros t p x m Ht U Ep Ex Em. rewrite G by auto. rewrite Ep, Ex, Em.
  replace (match thr with None => false | Some x => n_leb (get n_nan F t) x end) with false by (destruct thr; simpl in U; auto).
  assert (Pal : 0 < a * len) by (apply Rmult_lt_0_compat; auto).
  assert (AT : forall p q, att (XFin p : XR) (XFin q : XR) (XFin waa : XR) = (XFin (rain_attenuation p q waa) : XR)).
  { intros p0 q0. unfold att. change (n_sub (n_sub (XFin p0 : XR) (XFin q0 : XR)) (XFin waa : XR)) with (XFin (p0 - q0 - waa) : XR). cbv zeta.
    change (n_ltb (XFin (p0 - q0 - waa) : XR) zero) with (Rlt_bool (p0 - q0 - waa) 0). unfold rain_attenuation.
    destruct (Rlt_bool_spec (p0 - q0 - waa) 0); [rewrite Rmax_left by lra|rewrite Rmax_right by lra]; reflexivity. }
  rewrite !AT. unfold mixed.
  change (n_mul (XFin a : XR) (XFin len : XR)) with (XFin (a * len) : XR).
  assert (EB : n_div (one : XR) (XFin b : XR) = (XFin (1 / b) : XR)) by (apply (KR_proofs.xdiv_fin 1 b); lra). rewrite EB.
  rewrite !rain_of_pow; auto; unfold rain_attenuation; try apply Rmax_l.
Qed.

Lemma mixed_rate_mono alpha a b len p x m w p' x' m' w' : 0 <= alpha <= 1 -> 0 < a -> 0 < b -> 0 < len ->
  p - x - w <= p' - x' - w' -> p - m - w <= p' - m' - w' ->
  mixed_rate alpha a b len p x m w <= mixed_rate alpha a b len p' x' m' w'.
Proof.
  intros Hal Ha Hb Hl H1 H2. unfold mixed_rate.
  assert (R1 : rain_of a b len (rain_attenuation p x w) <= rain_of a b len (rain_attenuation p' x' w')).
  { apply ObsChain_proofs.rain_of_mono; auto; unfold rain_attenuation; [apply Rmax_l|apply Rle_max_compat_l; auto]. }
  assert (R2 : rain_of a b len (rain_attenuation p m w) <= rain_of a b len (rain_attenuation p' m' w')).
  { apply ObsChain_proofs.rain_of_mono; auto; unfold rain_attenuation; [apply Rmax_l|apply Rle_max_compat_l; auto]. }
  nra.
Qed.

Lemma rain_close cubic q (pmin pmin' pmax pmax' wet F : list XR) n mp (len a b waa alpha : R) thr ap :
  close_records q pmin pmin' -> close_records q pmax pmax' ->
  length pmin = length wet -> length pmax = length wet -> length F = length wet -> (1 <= mp <= n)%nat -> (n <= length wet)%nat ->
  0 < len -> 0 < a -> 0 < b -> 0 <= alpha <= 1 ->
  exists pref pref' cmin cmax cmin' cmax' rain rain',
    nearby_determine_reference_level pmin pmax wet n mp = Ok pref /\ nearby_determine_reference_level pmin' pmax' wet n mp = Ok pref' /\
    nearby_correct_received_signals pmin pmax wet pref = (cmin, cmax) /\ nearby_correct_received_signals pmin' pmax' wet pref' = (cmin', cmax') /\
    nearby_rainfall_retrival XRm cubic pref cmin cmax F (XFin len : XR) None None
      (Some (CScalar (XFin a : XR))) (Some (CScalar (XFin b : XR))) ap (XFin waa : XR) (XFin alpha : XR) thr = Ok rain /\
    nearby_rainfall_retrival XRm cubic pref' cmin' cmax' F (XFin len : XR) None None
      (Some (CScalar (XFin a : XR))) (Some (CScalar (XFin b : XR))) ap (XFin waa : XR) (XFin alpha : XR) thr = Ok rain' /\
    forall t p, (t < length wet)%nat -> unfiltered F thr t -> get n_nan pref t = XFin p ->
      (forall x y, get n_nan pmin t = XFin x -> get n_nan pmax t = XFin y -> x <= y) ->
      (forall x y, get n_nan pmin' t = XFin x -> get n_nan pmax' t = XFin y -> x <= y) ->
      (get n_nan pmin t = XNaN <-> get n_nan pmax t = XNaN) ->
      exists x m r', get n_nan cmin t = XFin x /\ get n_nan cmax t = XFin m /\
        get n_nan rain t = XFin (mixed_rate alpha a b len p x m waa) /\ get n_nan rain' t = XFin r' /\
        mixed_rate alpha a b len p x m (waa + 2 * q) <= r' <= mixed_rate alpha a b len p x m (waa - 2 * q).
Proof.
  intros C1 C2 L1 L2 LF H1 H2 Hl Ha Hb Hal.
  destruct (reference_close q pmin pmin' pmax pmax' wet n mp C1 C2 L1 L2 H1 H2) as (pref & pref' & E & E' & LP & C3).
  assert (LP' : length pref' = length wet) by (destruct C3; congruence).
  destruct (correct_signals XRsem pmin pmax wet pref (length wet)) as (cmin & cmax & EC & LC1 & LC2 & _); auto.
  destruct (correct_signals XRsem pmin' pmax' wet pref' (length wet)) as (cmin' & cmax' & EC' & LC1' & LC2' & _); auto;
    [destruct C1; congruence|destruct C2; congruence|].
  destruct (retrieval_at cubic pref cmin cmax F len a b waa alpha thr ap) as (rain & ER & _ & G); try congruence.
  destruct (retrieval_at cubic pref' cmin' cmax' F len a b waa alpha thr ap) as (rain' & ER' & _ & G'); try congruence.
  exists pref, pref', cmin, cmax, cmin', cmax', rain, rain'. do 6 (split; [assumption|]).
  intros t p Ht U Ep O1 O2 MI.
  destruct (corrected_near q pmin pmin' pmax pmax' wet pref pref' t C1 C2 C3 L1 L2 LP Ht O1 O2 MI p Ep) as (p' & x & x' & m & m' & Ep' & Ex & Em & Ex' & Em' & D1 & D2 & Q0).
  rewrite EC in Ex, Em. rewrite EC' in Ex', Em'. cbn [fst snd] in *.
  exists x, m, (mixed_rate alpha a b len p' x' m' waa). split; [exact Ex|]. split; [exact Em|].
  split; [apply G; auto; congruence|]. split; [apply G'; auto; congruence|]. apply Rabs_le_inv in D1, D2.
  split; apply mixed_rate_mono; auto; lra.
Qed.

(** one dry step and one wet step, equal extremes *)
Lemma two_steps (c e : R) pref : nearby_determine_reference_level [XFin c : XR; XFin e : XR] [XFin c : XR; XFin e : XR] [XFin 0 : XR; XFin 1 : XR] 2 1 = Ok pref ->
  get n_nan pref 1 = XFin c.
Proof.
  intros H. destruct (reference_level XRsem [XFin c : XR; XFin e : XR] [XFin c : XR; XFin e : XR] [XFin 0 : XR; XFin 1 : XR] 2 1) as (pr & E & LP & G);
    [reflexivity|reflexivity|lia|simpl; lia|].
  rewrite H in E. injection E as <-. destruct (G 1%nat) as [_ M]; [simpl; lia|].
  assert (D : dry_levels [XFin c : XR; XFin e : XR] [XFin c : XR; XFin e : XR] [XFin 0 : XR; XFin 1 : XR] 2 1 = ofR [c]).
  { unfold dry_levels. change (seq (1 + 1 - 2) (1 + 1 - (1 + 1 - 2))) with [0; 1]%nat. cbn [filter].
    change (get (n_nan : XR) [XFin 0 : XR; XFin 1 : XR] 0) with (XFin 0 : XR). change (get (n_nan : XR) [XFin 0 : XR; XFin 1 : XR] 1) with (XFin 1 : XR).
    assert (Z0 : n_eqb (XFin 0 : XR) (n_ofZ 0) = true) by (apply (proj2 (xeqb_true (XFin 0) (XFin 0))); split; reflexivity).
    assert (Z1 : n_eqb (XFin 1 : XR) (n_ofZ 0) = false).
    { destruct (n_eqb (XFin 1 : XR) (n_ofZ 0)) eqn:Q; auto. apply (proj1 (xeqb_true (XFin 1) (XFin 0))) in Q as [Q _]. injection Q. lra. }
    rewrite Z0, Z1. cbn [andb].
    assert (L0 : level [XFin c : XR; XFin e : XR] [XFin c : XR; XFin e : XR] 0 = (XFin c : XR)).
    { unfold level. change (n_div (n_add (get n_nan [XFin c : XR; XFin e : XR] 0) (get n_nan [XFin c : XR; XFin e : XR] 0)) (n_ofZ 2)) with (xdiv (XFin (c + c)) (XFin 2) : XR).
      rewrite KR_proofs.xdiv_fin by lra. apply (f_equal XFin). lra. }
    rewrite L0. change (negb (n_isnan (XFin c : XR))) with true. cbn [map]. rewrite L0. reflexivity. }
  rewrite D in M. specialize (M ltac:(simpl; lia)). apply median_sorted in M as (s & P & _ & M & _).
  apply Permutation_sym, Permutation_length_1_inv in P as ->. apply (M 0%nat). reflexivity.
Qed.

Lemma two_steps_corrected (c e : R) (pref : list XR) : length pref = 2%nat -> get n_nan pref 1 = XFin c -> e < c ->
  forall cmin cmax, nearby_correct_received_signals [XFin c : XR; XFin e : XR] [XFin c : XR; XFin e : XR] [XFin 0 : XR; XFin 1 : XR] pref = (cmin, cmax) ->
  get n_nan cmin 1 = XFin e /\ get n_nan cmax 1 = XFin e.
Proof.
  intros LP EP H cmin cmax E0.
  destruct (correct_signals XRsem [XFin c : XR; XFin e : XR] [XFin c : XR; XFin e : XR] [XFin 0 : XR; XFin 1 : XR] pref 2) as (u & v & E & _ & _ & G); auto.
  rewrite E0 in E. injection E as <- <-. destruct (G 1%nat) as (G1 & G2 & _); [lia|]. cbv zeta in *. rewrite EP in *.
  change (get (n_nan : XR) [XFin 0 : XR; XFin 1 : XR] 1) with (XFin 1 : XR) in *. change (get (n_nan : XR) [XFin c : XR; XFin e : XR] 1) with (XFin e : XR) in *.
  assert (Z1 : n_eqb (XFin 1 : XR) (n_ofZ 1) = true) by (apply (proj2 (xeqb_true (XFin 1) (XFin 1))); split; reflexivity).
  assert (Z2 : n_ltb (XFin e : XR) (XFin c : XR) = true) by (change (Rlt_bool e c = true); apply Rlt_bool_true; auto).
  rewrite Z1, Z2 in *. cbn [andb] in *. auto.
Qed.

(** the factor two is needed *)
Lemma rain_sharp cubic q (len a b waa alpha : R) ap : 0 <= q -> 0 < len -> 0 < a -> 0 < b -> 0 <= alpha <= 1 ->
  exists (p p' wet F pref pref' cmin cmax cmin' cmax' rain rain' : list XR) (d x m : R),
    close_records q p p' /\
    nearby_determine_reference_level p p wet 2 1 = Ok pref /\ nearby_determine_reference_level p' p' wet 2 1 = Ok pref' /\
    nearby_correct_received_signals p p wet pref = (cmin, cmax) /\ nearby_correct_received_signals p' p' wet pref' = (cmin', cmax') /\
    nearby_rainfall_retrival XRm cubic pref cmin cmax F (XFin len : XR) None None
      (Some (CScalar (XFin a : XR))) (Some (CScalar (XFin b : XR))) ap (XFin waa : XR) (XFin alpha : XR) None = Ok rain /\
    nearby_rainfall_retrival XRm cubic pref' cmin' cmax' F (XFin len : XR) None None
      (Some (CScalar (XFin a : XR))) (Some (CScalar (XFin b : XR))) ap (XFin waa : XR) (XFin alpha : XR) None = Ok rain' /\
    get n_nan pref 1 = XFin d /\ get n_nan cmin 1 = XFin x /\ get n_nan cmax 1 = XFin m /\ waa < d - m /\
    get n_nan rain 1 = XFin (mixed_rate alpha a b len d x m waa) /\
    get n_nan rain' 1 = XFin (mixed_rate alpha a b len d x m (waa - 2 * q)).
Proof.
  intros Hq Hl Ha Hb Hal. pose proof (Rmax_l 0 waa). pose proof (Rmax_r 0 waa). set (w := Rmax 0 waa) in *.
  set (c := -50). set (e := -51 - w).
  set (p := [XFin c : XR; XFin e : XR]). set (p' := [XFin (c + q) : XR; XFin (e - q) : XR]). set (wet := [XFin 0 : XR; XFin 1 : XR]).
  assert (C : close_records q p p').
  { split; [reflexivity|]. intros [|[|k]].
    - right. exists c, (c + q). do 2 (split; [reflexivity|]). apply Rabs_le. lra.
    - right. exists e, (e - q). do 2 (split; [reflexivity|]). apply Rabs_le. lra.
    - left. split; unfold get; apply nth_overflow; simpl; lia. }
  destruct (reference_close q p p' p p' wet 2 1 C C) as (pref & pref' & E & E' & LP & CP); [reflexivity|reflexivity|lia|simpl; lia|].
  assert (LP' : length pref' = 2%nat) by (destruct CP; simpl in *; congruence).
  pose proof (two_steps c e pref E) as EP. pose proof (two_steps (c + q) (e - q) pref' E') as EP'.
  destruct (correct_signals XRsem p p wet pref 2) as (cmin & cmax & EC & LC1 & LC2 & _); auto.
  destruct (correct_signals XRsem p' p' wet pref' 2) as (cmin' & cmax' & EC' & LC1' & LC2' & _); auto.
  destruct (two_steps_corrected c e pref LP EP ltac:(unfold c, e; lra) cmin cmax EC) as [X M].
  destruct (two_steps_corrected (c + q) (e - q) pref' LP' EP' ltac:(unfold c, e; lra) cmin' cmax' EC') as [X' M'].
  assert (LW : length wet = 2%nat) by reflexivity.
  destruct (retrieval_at cubic pref cmin cmax wet len a b waa alpha None ap) as (rain & ER & _ & G); try congruence.
  destruct (retrieval_at cubic pref' cmin' cmax' wet len a b waa alpha None ap) as (rain' & ER' & _ & G'); try congruence.
  exists p, p', wet, wet, pref, pref', cmin, cmax, cmin', cmax', rain, rain', c, e, e.
  split; [exact C|]. do 6 (split; [assumption|]). do 3 (split; [assumption|]). split; [unfold c, e; lra|].
  split; [apply G; [rewrite LP; simpl; lia|exact I|auto..]|].
  rewrite (G' 1%nat (c + q) (e - q) (e - q)); [|rewrite LP'; lia|exact I|auto..].
  apply (f_equal XFin). unfold mixed_rate, rain_attenuation. do 2 f_equal; do 2 f_equal; lra.
Qed.
