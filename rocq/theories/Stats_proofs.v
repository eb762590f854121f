(** * Proofs about the validation metrics: counts *)
From Coq Require Import List ZArith Bool Lia Reals Lra.
From Flocq Require Import Core.Raux.
From Verif Require Import Base Num NumF64 NumList NpOps RealSpec RealStat Stats_model Stats_spec.
Import ListNotations.
Local Open Scope nat_scope.

Lemma mask_select_cons {A} (d : A) b m x a : mask_select d (b :: m) (x :: a) = (if b then [x] else []) ++ mask_select d m a.
Proof.
  unfold mask_select, where_true. cbn [length seq]. cbn [filter]. change (get false (b :: m) 0) with b.
  assert (E : filter (fun i => get false (b :: m) i) (seq 1 (length m)) = map S (filter (fun i => get false m i) (seq 0 (length m)))).
  { rewrite <- seq_shift. generalize (seq 0 (length m)). induction l as [|i l IH]; auto. cbn [map filter].
    change (get false (b :: m) (S i)) with (get false m i). rewrite IH. destruct (get false m i); auto. }
  rewrite E. destruct b; cbn [map app]; rewrite map_map; reflexivity.
Qed.
Lemma mask_select_map {A B} (d : A) (g : B -> A) (h : B -> bool) l :
  mask_select d (map h l) (map g l) = map g (filter h l).
Proof.
  induction l as [|x l IH]; auto. cbn [map filter]. rewrite mask_select_cons, IH. destruct (h x); auto.
Qed.

Lemma b_sum_map {A} (f : A -> bool) l : b_sum (map f l) = count f l.
Proof. unfold b_sum, count. induction l; cbn; auto. destruct (f a); cbn; auto. Qed.
Lemma b_sum_and {A} (f g : A -> bool) l : b_sum (b_and (map f l) (map g l)) = count (fun x => f x && g x) l.
Proof.
  unfold b_and, map2, b_sum, count. induction l; cbn; auto. destruct (f a), (g a); cbn; auto.
Qed.
Lemma b_and_map {A} (f g : A -> bool) l : b_and (map f l) (map g l) = map (fun x => f x && g x) l.
Proof. unfold b_and, map2. induction l; cbn; f_equal; auto. Qed.
Lemma count_ext {A} (f g : A -> bool) l : (forall x, In x l -> f x = g x) -> count f l = count g l.
Proof. intros H. unfold count. f_equal. apply filter_ext_in; auto. Qed.
Lemma count_split {A} (f g : A -> bool) l : count (fun x => f x && g x) l + count (fun x => f x && negb (g x)) l = count f l.
Proof. unfold count. induction l; cbn; auto. destruct (f a), (g a); cbn; lia. Qed.
Lemma count_negb {A} (f : A -> bool) l : count f l + count (fun x => negb (f x)) l = length l.
Proof. unfold count. induction l; cbn; auto. destruct (f a); cbn; lia. Qed.
Lemma count_le {A} (f g : A -> bool) l : (forall x, f x = true -> g x = true) -> count f l <= count g l.
Proof.
  intros H. unfold count. induction l; cbn; auto. destruct (f a) eqn:E; [rewrite (H _ E); cbn; lia|]. destruct (g a); cbn; lia.
Qed.

Section Counts.
Context {O : numops}.

Lemma valid_fst (r p : list O) : length r = length p ->
  mask_select n_nan (b_not (nan_index r p)) r = map fst (valid_pairs r p) /\
  mask_select n_nan (b_not (nan_index r p)) p = map snd (valid_pairs r p).
Proof.
  revert p. induction r as [|x r IH]; intros [|y p] E; try discriminate; [split; reflexivity|].
  injection E as E. destruct (IH p E) as [I1 I2]. unfold valid_pairs in *.
  assert (EN : b_not (nan_index (x :: r) (y :: p)) = negb (n_isnan x || n_isnan y) :: b_not (nan_index r p)) by reflexivity.
  rewrite EN, !mask_select_cons, I1, I2. cbn [combine filter fst snd]. rewrite negb_orb.
  destruct (negb (n_isnan x) && negb (n_isnan y)); split; reflexivity.
Qed.

Lemma nan_count (r p : list O) : length r = length p ->
  b_sum (nan_index r p) + length (valid_pairs r p) = length r.
Proof.
  revert p. induction r as [|x r IH]; intros [|y p] E; try discriminate; auto. injection E as E. specialize (IH p E).
  unfold valid_pairs in *. unfold nan_index, b_or, map2, b_sum in *. cbn [map combine filter fst snd length].
  destruct (n_isnan x), (n_isnan y); cbn [orb negb andb length filter]; lia.
Qed.
Lemma nan_count_bounds (r p : list O) : length r = length p ->
  b_sum (map n_isnan r) <= b_sum (nan_index r p) /\ b_sum (map n_isnan p) <= b_sum (nan_index r p) /\
  b_sum (nan_index r p) <= b_sum (map n_isnan r) + b_sum (map n_isnan p).
Proof.
  revert p. induction r as [|x r IH]; intros [|y p] E; try discriminate; auto. injection E as E. specialize (IH p E).
  unfold nan_index, b_or, map2, b_sum in *. cbn [map combine filter fst snd length].
  destruct (n_isnan x), (n_isnan y); cbn [orb filter length]; lia.
Qed.

Lemma shape_eqb_refl s : shape_eqb s s = true.
Proof. unfold shape_eqb. destruct (list_eq_dec _ s s); congruence. Qed.
Lemma shape_neqb s t : s <> t -> shape_eqb s t = false.
Proof. intros. unfold shape_eqb. destruct (list_eq_dec _ s t); congruence. Qed.

(** the wet/dry metrics in terms of the valid pairs *)
Lemma wd_eval (r p : list O) n sh : length r = length p ->
  let ps := valid_pairs r p in
  let tp := count (true_wet zero) ps in let tn := count (true_dry zero) ps in
  let fp := count (false_wet zero) ps in let fn := count (missed_wet zero) ps in
  calc_wet_dry_performance_metrics (mk_arr (n :: sh) r) (mk_arr (n :: sh) p) =
  Ok {| wd_false_wet_rate := ratio fp (count (fun p => dry zero (fst p)) ps);
        wd_missed_wet_rate := ratio fn (count (fun p => wet zero (fst p)) ps);
        wd_matthews_correlation := if count (fun p => wet zero (snd p)) ps =? 0 then zero else
                                   if n_isinf (matthews tp tn fp fn : O) then zero else matthews tp tn fp fn;
        wd_true_wet_rate := ratio tp (count (fun p => wet zero (fst p)) ps);
        wd_true_dry_rate := ratio tn (count (fun p => dry zero (fst p)) ps);
        N_dry_reference := count (fun p => dry zero (fst p)) ps; N_wet_reference := count (fun p => wet zero (fst p)) ps;
        N_true_wet := tp; N_true_dry := tn; N_false_wet := fp; N_missed_wet := fn;
        N_all_pairs := n; N_nan_pairs := b_sum (nan_index r p);
        N_nan_reference_only := count n_isnan r; N_nan_predicted_only := count n_isnan p |}.
Proof.
  intros E ps tp tn fp fn. unfold calc_wet_dry_performance_metrics. cbn [nd_shape nd_data nd_len bind].
  rewrite shape_eqb_refl. cbn [negb]. destruct (valid_fst r p E) as [-> ->]. fold ps.
  unfold b_not. rewrite !map_map, !b_sum_and, !b_sum_map. reflexivity.
Qed.

Lemma wd_shapes (a b : ndarr O) : nd_shape a <> nd_shape b -> calc_wet_dry_performance_metrics a b = Err AssertionError.
Proof. intros H. unfold calc_wet_dry_performance_metrics. rewrite shape_neqb by auto. reflexivity. Qed.

(** the counts *)
Lemma marginals (t : O) ps :
  count (true_wet t) ps + count (missed_wet t) ps = count (fun p => wet t (fst p)) ps /\
  count (true_dry t) ps + count (false_wet t) ps = count (fun p => dry t (fst p)) ps /\
  count (true_wet t) ps + count (false_wet t) ps = count (fun p => wet t (snd p)) ps /\
  count (true_dry t) ps + count (missed_wet t) ps = count (fun p => dry t (snd p)) ps /\
  count (true_wet t) ps + count (true_dry t) ps + count (false_wet t) ps + count (missed_wet t) ps = length ps.
Proof.
  unfold count, true_wet, true_dry, false_wet, missed_wet, wet, dry.
  induction ps as [|[x y] ps IH]; cbn [filter length fst snd] in *; [repeat split; reflexivity|].
  destruct (n_ltb t x), (n_ltb t y); cbn [andb negb length]; lia.
Qed.

Lemma wd_counts (r p : list O) n : length r = n -> length p = n ->
  exists w, calc_wet_dry_performance_metrics (mk_arr [n] r) (mk_arr [n] p) = Ok w /\
  let ps := valid_pairs r p in
  N_true_wet w = count (true_wet zero) ps /\ N_true_dry w = count (true_dry zero) ps /\
  N_false_wet w = count (false_wet zero) ps /\ N_missed_wet w = count (missed_wet zero) ps /\
  N_nan_reference_only w = count n_isnan r /\ N_nan_predicted_only w = count n_isnan p /\ N_all_pairs w = n /\
  N_true_wet w + N_missed_wet w = N_wet_reference w /\ N_true_dry w + N_false_wet w = N_dry_reference w /\
  N_true_wet w + N_true_dry w + N_false_wet w + N_missed_wet w + N_nan_pairs w = N_all_pairs w /\
  N_nan_reference_only w <= N_nan_pairs w /\ N_nan_predicted_only w <= N_nan_pairs w /\
  N_nan_pairs w <= N_nan_reference_only w + N_nan_predicted_only w.
Proof.
  intros Hr Hp. assert (E : length r = length p) by congruence. rewrite (wd_eval r p n [] E).
  eexists. split; [reflexivity|]. cbn [N_true_wet N_true_dry N_false_wet N_missed_wet N_nan_reference_only N_nan_predicted_only N_all_pairs N_wet_reference N_dry_reference N_nan_pairs].
  pose proof (marginals zero (valid_pairs r p)) as (M1 & M2 & _ & _ & M5).
  pose proof (nan_count r p E). pose proof (nan_count_bounds r p E) as (B1 & B2 & B3).
  rewrite !b_sum_map in *. repeat split; auto; lia.
Qed.

(** two-dimensional input: the same counts, but N_all_pairs is the number of rows *)
Lemma wd_counts_nd (r p : list O) n sh : length r = length p -> length r = n * fold_right Nat.mul 1 sh ->
  exists w, calc_wet_dry_performance_metrics (mk_arr (n :: sh) r) (mk_arr (n :: sh) p) = Ok w /\
  N_true_wet w + N_true_dry w + N_false_wet w + N_missed_wet w + N_nan_pairs w = n * fold_right Nat.mul 1 sh /\ N_all_pairs w = n.
Proof.
  intros E EL. rewrite (wd_eval r p n sh E). eexists. split; [reflexivity|].
  cbn [N_true_wet N_true_dry N_false_wet N_missed_wet N_nan_pairs N_all_pairs].
  pose proof (marginals zero (valid_pairs r p)) as (_ & _ & _ & _ & M5). pose proof (nan_count r p E). split; auto; lia.
Qed.

(** ** the deprecated functions *)
Definition of_bool (b : bool) : O := if b then one else zero.
Lemma deprecated_agree (S : numsem O) (t w : list bool) : length t = length w ->
  exists m, calc_wet_dry_performance_metrics (mk_arr [length t] (map of_bool t)) (mk_arr [length t] (map of_bool w)) = Ok m /\
  calc_wet_error_rates t w = (wd_false_wet_rate m, wd_missed_wet_rate m) /\
  calc_wet_dry_error t w = (wd_missed_wet_rate m, wd_false_wet_rate m).
Proof.
  intros E. rewrite wd_eval by (rewrite !map_length; auto). eexists. split; [reflexivity|].
  cbn [wd_false_wet_rate wd_missed_wet_rate].
  assert (W : forall b, wet zero (of_bool b) = b).
  { intros b. unfold wet. rewrite (val_ltb _ S). unfold of_bool, zero, one.
    destruct b; rewrite ?(val_ofZ _ S) by (simpl; lia); cbn; xcases; auto; lra. }
  assert (N : forall b, n_isnan (of_bool b) = false).
  { intros b. unfold of_bool, zero, one. destruct b; apply (isnan_ofZ S); simpl; lia. }
  assert (EV : valid_pairs (map of_bool t) (map of_bool w) = map (fun q => (of_bool (fst q), of_bool (snd q))) (combine t w)).
  { clear - N E. revert w E. induction t as [|x t IH]; intros [|y w] E; try discriminate; auto. injection E as E.
    unfold valid_pairs in *. cbn [map combine filter fst snd]. rewrite !N. cbn [negb andb]. f_equal. auto. }
  assert (C : forall f g : bool -> bool, count (fun q => f (fst q) && g (snd q)) (combine t w) = b_sum (b_and (map f t) (map g w))).
  { clear - E. intros f g. revert w E. induction t as [|x t IH]; intros [|y w] E; try discriminate; auto. injection E as E.
    specialize (IH w E). unfold count, b_sum, b_and, map2 in *. cbn [map combine filter fst snd]. destruct (f x && g y); cbn [length]; lia. }
  assert (C1 : forall f : bool -> bool, count (fun q => f (fst q)) (combine t w) = b_sum (map f t)).
  { clear - E. intros f. revert w E. induction t as [|x t IH]; intros [|y w] E; try discriminate; auto. injection E as E.
    specialize (IH w E). unfold count, b_sum in *. cbn [map combine filter fst snd]. destruct (f x); cbn [length]; lia. }
  assert (CM : forall (f : O * O -> bool) (g : bool * bool -> bool), (forall x y, f (of_bool x, of_bool y) = g (x, y)) ->
     count f (valid_pairs (map of_bool t) (map of_bool w)) = count g (combine t w)).
  { intros f g H. rewrite EV. clear - H. induction (combine t w) as [|[x y] l IH]; auto. unfold count in *. cbn [map filter fst snd].
    rewrite H. destruct (g (x, y)); cbn [length]; auto. }
  assert (F1 : count (false_wet zero) (valid_pairs (map of_bool t) (map of_bool w)) = b_sum (b_and (is_false t) (is_true w))).
  { unfold is_false, is_true. rewrite <- C. apply CM. intros x y. unfold false_wet, dry. cbn [fst snd]. fold (wet (zero : O) (of_bool x)). rewrite !W.
    destruct x, y; reflexivity. }
  assert (F2 : count (missed_wet zero) (valid_pairs (map of_bool t) (map of_bool w)) = b_sum (b_and (is_true t) (is_false w))).
  { unfold is_false, is_true. rewrite <- C. apply CM. intros x y. unfold missed_wet, dry. cbn [fst snd]. fold (wet (zero : O) (of_bool y)). rewrite !W.
    destruct x, y; reflexivity. }
  assert (F3 : count (fun p : O * O => dry zero (fst p)) (valid_pairs (map of_bool t) (map of_bool w)) = b_sum (is_false t)).
  { unfold is_false. rewrite <- C1. apply CM. intros x y. unfold dry. cbn [fst snd]. fold (wet (zero : O) (of_bool x)). rewrite W. destruct x; reflexivity. }
  assert (F4 : count (fun p : O * O => wet zero (fst p)) (valid_pairs (map of_bool t) (map of_bool w)) = b_sum (is_true t)).
  { unfold is_true. rewrite <- C1. apply CM. intros x y. cbn [fst snd]. rewrite W. destruct x; reflexivity. }
  rewrite F1, F2, F3, F4. split; reflexivity.
Qed.
End Counts.
