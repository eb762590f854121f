(** * Proofs about symmetries of the validation metrics *)
From Coq Require Import List ZArith Bool Lia Reals Lra Psatz Permutation.
From Flocq Require Import Core BinarySingleNaN.
From Verif Require Import Base Num NumF64 NumList NpOps RealSpec RealStat Stats_model Stats_spec Stats_proofs Stats_proofs2 Stats_proofs3 Local_proofs.
Import ListNotations.
Local Open Scope nat_scope.

(** ** lists of pairs *)
Section Maps.
Context {O : numops}.
Lemma v_sub_map {A} (f g : A -> O) l : v_sub (map f l) (map g l) = map (fun q => n_sub (f q) (g q)) l.
Proof. unfold v_sub, map2. induction l as [|x l IH]; auto. cbn [map combine fst snd]. rewrite IH. reflexivity. Qed.
Lemma v_mul_map {A} (f g : A -> O) l : v_mul (map f l) (map g l) = map (fun q => n_mul (f q) (g q)) l.
Proof. unfold v_mul, map2. induction l as [|x l IH]; auto. cbn [map combine fst snd]. rewrite IH. reflexivity. Qed.
Lemma centered_map {A} (f : A -> O) l : centered (map f l) = map (fun q => n_sub (f q) (n_mean (map f l))) l.
Proof. unfold centered. rewrite map_map. reflexivity. Qed.

Lemma count_perm {A} (f : A -> bool) l l' : Permutation l l' -> count f l = count f l'.
Proof. intros H. unfold count. apply Permutation_length, filter_perm, H. Qed.
Lemma combine_fst {A B} (a : list A) (b : list B) : length a = length b -> map fst (combine a b) = a.
Proof. revert b. induction a as [|x a IH]; intros [|y b] H; try discriminate; auto. cbn. f_equal. apply IH. cbn in H. lia. Qed.
Lemma combine_snd {A B} (a : list A) (b : list B) : length a = length b -> map snd (combine a b) = b.
Proof. revert b. induction a as [|x a IH]; intros [|y b] H; try discriminate; auto. cbn. f_equal. apply IH. cbn in H. lia. Qed.

Section Perm.
Context (r p r' p' : list O).
Hypotheses (H1 : length r = length p) (H2 : length r' = length p') (P : Permutation (combine r p) (combine r' p')).
Lemma perm_valid : Permutation (valid_pairs r p) (valid_pairs r' p').
Proof using P. apply filter_perm, P. Qed.
Lemma perm_fst : Permutation r r'.
Proof using H1 H2 P. rewrite <- (combine_fst r p H1), <- (combine_fst r' p' H2). apply Permutation_map, P. Qed.
Lemma perm_snd : Permutation p p'.
Proof using H1 H2 P. rewrite <- (combine_snd r p H1), <- (combine_snd r' p' H2). apply Permutation_map, P. Qed.
Lemma perm_nan : b_sum (nan_index r p) = b_sum (nan_index r' p').
Proof using H1 H2 P.
  pose proof (nan_count r p H1) as A. pose proof (nan_count r' p' H2) as B.
  pose proof (Permutation_length perm_valid). pose proof (Permutation_length perm_fst). lia.
Qed.
Lemma wd_perm n sh : calc_wet_dry_performance_metrics (mk_arr (n :: sh) r) (mk_arr (n :: sh) p) =
  calc_wet_dry_performance_metrics (mk_arr (n :: sh) r') (mk_arr (n :: sh) p').
Proof using H1 H2 P.
  rewrite (wd_eval r p n sh H1), (wd_eval r' p' n sh H2), perm_nan.
  rewrite (count_perm n_isnan r r' perm_fst), (count_perm n_isnan p p' perm_snd).
  pose proof perm_valid as V.
  rewrite !(fun f => count_perm f _ _ V). reflexivity.
Qed.
End Perm.
End Maps.

(** ** order of the pairs, exact *)
Lemma fold_xadd_perm l l' : Permutation l l' -> forall a : XR, fold_left (@n_add XR) l a = fold_left (@n_add XR) l' a.
Proof.
  induction 1 as [|x l l' H IH|x y l|l m l' H1 IH1 H2 IH2]; intros a; auto.
  - cbn [fold_left]. apply IH.
  - cbn [fold_left]. f_equal. change (xadd (xadd a y) x = xadd (xadd a x) y).
    destruct a, x, y; cbn; auto. f_equal. ring.
  - rewrite IH1. apply IH2.
Qed.
Lemma sum_perm (l l' : list XR) : Permutation l l' -> n_sum l = n_sum l'.
Proof. intros H. apply (fold_xadd_perm l l' H). Qed.
Lemma mean_perm (l l' : list XR) : Permutation l l' -> n_mean l = n_mean l'.
Proof. intros H. unfold n_mean. rewrite (sum_perm l l' H), (Permutation_length H). reflexivity. Qed.

Lemma rain_perm (r p r' p' : list XR) n sh t : length r = length p -> length r' = length p' ->
  Permutation (combine r p) (combine r' p') ->
  calc_rain_error_performance_metrics (mk_arr (n :: sh) r) (mk_arr (n :: sh) p) t =
  calc_rain_error_performance_metrics (mk_arr (n :: sh) r') (mk_arr (n :: sh) p') t.
Proof.
  intros H1 H2 P. rewrite (rain_eval r p n sh t H1), (rain_eval r' p' n sh t H2), (perm_nan r p r' p' H1 H2 P).
  rewrite (count_perm n_isnan r r' (perm_fst r p r' p' H1 H2 P)), (count_perm n_isnan p p' (perm_snd r p r' p' H1 H2 P)).
  pose proof (perm_valid r p r' p' P) as V. set (ps := valid_pairs r p) in *. set (ps' := valid_pairs r' p') in *.
  rewrite !(fun f => count_perm f _ _ V).
  assert (M : forall f : XR * XR -> XR, n_mean (map f ps) = n_mean (map f ps')) by (intros f; apply mean_perm, Permutation_map, V).
  assert (SM : forall f : XR * XR -> XR, n_sum (map f ps) = n_sum (map f ps')) by (intros f; apply sum_perm, Permutation_map, V).
  assert (C : forall f g : XR * XR -> XR, np_cov (map f ps) (map g ps) = np_cov (map f ps') (map g ps')).
  { intros f g. unfold np_cov. rewrite !centered_map, !v_mul_map, !map_length, SM, (Permutation_length V), !M. reflexivity. }
  unfold np_corrcoef. rewrite !C. unfold np_std, v_square. rewrite !v_sub_map, !centered_map, !map_map, !SM, !M.
  rewrite (mean_perm _ _ (Permutation_map snd (filter_perm (false_wet t) _ _ V))), (mean_perm _ _ (Permutation_map fst (filter_perm (missed_wet t) _ _ V))).
  reflexivity.
Qed.

(** ** exchanging reference and prediction *)
Definition swap {A} (q : A * A) : A * A := (snd q, fst q).
Lemma combine_swap {A} (a b : list A) : combine b a = map swap (combine a b).
Proof. revert b. induction a as [|x a IH]; intros [|y b]; auto. cbn. unfold swap at 1. cbn. f_equal. apply IH. Qed.
Lemma filter_map_comm {A B} (f : A -> B) (g : B -> bool) l : filter g (map f l) = map f (filter (fun x => g (f x)) l).
Proof. induction l as [|x l IH]; auto. cbn. rewrite IH. destruct (g (f x)); auto. Qed.
Lemma count_map {A B} (f : A -> B) (g : B -> bool) l : count g (map f l) = count (fun x => g (f x)) l.
Proof. unfold count. rewrite filter_map_comm, map_length. reflexivity. Qed.
Lemma valid_swap {O : numops} (r p : list O) : valid_pairs p r = map swap (valid_pairs r p).
Proof.
  unfold valid_pairs. rewrite combine_swap, filter_map_comm. f_equal. apply filter_ext. intros [x y]. unfold swap. cbn [fst snd]. apply andb_comm.
Qed.

Lemma f_rnd_opp x : f_rnd (xopp x) = xopp (f_rnd x).
Proof.
  destruct x as [| |a|]; auto. cbn [xopp f_rnd]. unfold rnd64. rewrite round_NE_opp, Rabs_Ropp. fold (rnd64 a).
  destruct (Rlt_bool (Rabs (rnd64 a)) (bpow radix2 1024)) eqn:E; auto.
  destruct (Rlt_bool_spec (- a) 0), (Rlt_bool_spec a 0); cbn [xopp]; auto; try lra.
  assert (a = 0)%R by lra. subst a. exfalso. unfold rnd64 in E. rewrite round_0 in E by apply _. rewrite Rabs_R0, Rlt_bool_true in E; [discriminate|]. apply bpow_gt_0.
Qed.
Lemma xsub_anti x y : xsub y x = xopp (xsub x y).
Proof. destruct x, y; cbn; auto. f_equal. ring. Qed.
Lemma xmul_opp x : xmul (xopp x) (xopp x) = xmul x x.
Proof. destruct x; cbn; auto. f_equal. ring. Qed.
Lemma xabs_opp x : xabs (xopp x) = xabs x.
Proof. destruct x; cbn; auto. rewrite Rabs_Ropp. auto. Qed.

Section Sums.
Context {O : numops} (S : numsem O).
Lemma sum_val_from {A} (f g : A -> O) l : (forall q, In q l -> val S (f q) = val S (g q)) ->
  forall a b, val S a = val S b -> val S (fold_left n_add (map f l) a) = val S (fold_left n_add (map g l) b).
Proof.
  induction l as [|q l IH]; intros H a b E; auto. cbn [map fold_left]. apply IH; [intros; apply H; right; auto|].
  rewrite !(val_add _ S), E, (H q) by (left; auto). reflexivity.
Qed.
Lemma div_val (x y z : O) : val S x = val S y -> val S z <> XFin 0 -> val S (n_div x z) = val S (n_div y z).
Proof. intros E N. rewrite !(val_div _ S) by auto. rewrite E. reflexivity. Qed.
End Sums.
Lemma mean_val {A} (f g : A -> F64) l : (Z.of_nat (length l) <= 2 ^ 53)%Z -> (forall q, In q l -> f_val (f q) = f_val (g q)) ->
  f_val (n_mean (map f l)) = f_val (n_mean (map g l)).
Proof.
  intros HL H. destruct l as [|q l]; [reflexivity|]. unfold n_mean. rewrite !map_length.
  assert (E : f_val (n_sum (map f (q :: l))) = f_val (n_sum (map g (q :: l)))) by (apply (sum_val_from F64sem f g (q :: l) H); reflexivity).
  apply (div_val F64sem); auto. rewrite (val_ofZ _ F64sem) by lia. intros K. injection K as K. apply eq_IZR in K. cbn [length] in K. lia.
Qed.
Lemma sqrt_val (x y : F64) : f_val x = f_val y -> f_val (n_sqrt x) = f_val (n_sqrt y).
Proof. intros E. change (val F64sem (n_sqrt x) = val F64sem (n_sqrt y)). rewrite !(val_sqrt _ F64sem). change (val F64sem) with f_val. rewrite E. reflexivity. Qed.

Lemma filter_length_le' {A} (f : A -> bool) l : length (filter f l) <= length l.
Proof. induction l as [|x l IH]; cbn; auto. destruct (f x); cbn; lia. Qed.

Lemma metrics_swap (r p : list F64) n t : length r = n -> length p = n -> (Z.of_nat n <= 2 ^ 53)%Z ->
  exists w w' e e',
  calc_wet_dry_performance_metrics (mk_arr [n] r) (mk_arr [n] p) = Ok w /\
  calc_wet_dry_performance_metrics (mk_arr [n] p) (mk_arr [n] r) = Ok w' /\
  calc_rain_error_performance_metrics (mk_arr [n] r) (mk_arr [n] p) t = Ok e /\
  calc_rain_error_performance_metrics (mk_arr [n] p) (mk_arr [n] r) t = Ok e' /\
  N_true_wet w' = N_true_wet w /\ N_true_dry w' = N_true_dry w /\
  N_false_wet w' = N_missed_wet w /\ N_missed_wet w' = N_false_wet w /\
  N_all_pairs w' = N_all_pairs w /\ N_nan_pairs w' = N_nan_pairs w /\
  N_nan_reference_only w' = N_nan_predicted_only w /\ N_nan_predicted_only w' = N_nan_reference_only w /\
  R_sum_reference e' = R_sum_predicted e /\ R_sum_predicted e' = R_sum_reference e /\
  R_mean_reference e' = R_mean_predicted e /\ R_mean_predicted e' = R_mean_reference e /\
  false_wet_precipitation_rate e' = missed_wet_precipitation_rate e /\
  missed_wet_precipitation_rate e' = false_wet_precipitation_rate e /\
  f_val (mean_absolute_error e') = f_val (mean_absolute_error e) /\
  f_val (root_mean_square_error e') = f_val (root_mean_square_error e).
Proof.
  intros H1 H2 HN. assert (E : length r = length p) by congruence. assert (E' : length p = length r) by congruence.
  rewrite (wd_eval r p n [] E), (wd_eval p r n [] E'), (rain_eval r p n [] t E), (rain_eval p r n [] t E').
  do 4 eexists. do 4 (split; [reflexivity|]). cbn [N_true_wet N_true_dry N_false_wet N_missed_wet N_all_pairs N_nan_pairs N_nan_reference_only
    N_nan_predicted_only R_sum_reference R_sum_predicted R_mean_reference R_mean_predicted false_wet_precipitation_rate
    missed_wet_precipitation_rate mean_absolute_error root_mean_square_error].
  assert (NP : b_sum (nan_index p r) = b_sum (nan_index r p)).
  { pose proof (nan_count r p E) as A. pose proof (nan_count p r E') as B. rewrite valid_swap, map_length in B. lia. }
  assert (LB : (Z.of_nat (length (valid_pairs r p)) <= 2 ^ 53)%Z).
  { assert (length (valid_pairs r p) <= n); [|lia]. unfold valid_pairs. etransitivity; [apply filter_length_le'|]. rewrite combine_length. lia. }
  rewrite (valid_swap r p). set (ps := valid_pairs r p) in *. rewrite !count_map, !map_map.
  unfold v_square. rewrite !v_sub_map, !map_map.
  assert (C : forall f g : F64 * F64 -> bool, (forall q, f (swap q) = g q) -> count (fun x => f (swap x)) ps = count g ps).
  { intros f g H. unfold count. f_equal. apply filter_ext. exact H. }
  assert (F : forall f g : F64 * F64 -> bool, (forall q, f (swap q) = g q) -> filter f (map swap ps) = map swap (filter g ps)).
  { intros f g H. rewrite filter_map_comm. f_equal. apply filter_ext. exact H. }
  split; [apply C; intros [a b]; apply andb_comm|]. split; [apply C; intros [a b]; apply andb_comm|].
  split; [apply C; intros [a b]; apply andb_comm|]. split; [apply C; intros [a b]; apply andb_comm|].
  split; [reflexivity|]. split; [exact NP|]. split; [reflexivity|]. split; [reflexivity|].
  split; [reflexivity|]. split; [reflexivity|]. split; [reflexivity|]. split; [reflexivity|].
  rewrite (F (false_wet t) (missed_wet t)) by (intros [a b]; apply andb_comm).
  rewrite (F (missed_wet t) (false_wet t)) by (intros [a b]; apply andb_comm). rewrite !map_map.
  split; [reflexivity|]. split; [reflexivity|].
  assert (D : forall q : F64 * F64, f_val (n_sub (snd (swap q)) (fst (swap q))) = xopp (f_val (n_sub (snd q) (fst q)))).
  { intros [a b]. unfold swap. cbn [fst snd]. change (val F64sem (n_sub a b) = xopp (val F64sem (n_sub b a))).
    rewrite !(val_sub _ F64sem), (xsub_anti (val F64sem b)). exact (f_rnd_opp _). }
  split.
  - apply mean_val; auto. intros q _. change (val F64sem (n_abs (n_sub (snd (swap q)) (fst (swap q)))) = val F64sem (n_abs (n_sub (snd q) (fst q)))).
    rewrite !(val_abs _ F64sem). change (val F64sem) with f_val. rewrite D. apply xabs_opp.
  - apply sqrt_val. apply mean_val; auto. intros q _.
    match goal with |- f_val (n_mul ?a ?a) = f_val (n_mul ?b ?b) => change (val F64sem (n_mul a a) = val F64sem (n_mul b b)) end.
    rewrite !(val_mul _ F64sem). change (val F64sem) with f_val. rewrite D. rewrite xmul_opp. reflexivity.
Qed.

(** Matthews correlation, exact: symmetric as long as both series contain wet pairs *)
Lemma matthews_swap (r p : list XR) n : length r = n -> length p = n ->
  exists w w', calc_wet_dry_performance_metrics (mk_arr [n] r) (mk_arr [n] p) = Ok w /\
  calc_wet_dry_performance_metrics (mk_arr [n] p) (mk_arr [n] r) = Ok w' /\
  (N_wet_reference w <> 0 -> N_wet_reference w' <> 0 -> wd_matthews_correlation w' = wd_matthews_correlation w) /\
  (N_wet_reference w <> 0 -> N_wet_reference w' = 0 -> wd_matthews_correlation w = XFin 0 /\ wd_matthews_correlation w' = XNaN) /\
  (N_wet_reference w = 0 -> N_wet_reference w' = 0 -> wd_matthews_correlation w = XFin 0 /\ wd_matthews_correlation w' = XFin 0).
Proof.
  intros H1 H2. assert (E : length r = length p) by congruence. assert (E' : length p = length r) by congruence.
  rewrite (wd_eval r p n [] E), (wd_eval p r n [] E'). do 2 eexists. do 2 (split; [reflexivity|]).
  cbn [wd_matthews_correlation N_wet_reference]. rewrite (valid_swap r p). set (ps := valid_pairs r p). rewrite !count_map.
  destruct (marginals zero ps) as (M1 & M2 & M3 & M4 & _).
  assert (C : forall f g : XR * XR -> bool, (forall q, f (swap q) = g q) -> count (fun x => f (swap x)) ps = count g ps).
  { intros f g H. unfold count. f_equal. apply filter_ext. exact H. }
  rewrite (C (true_wet zero) (true_wet zero)) by (intros [a b]; apply andb_comm).
  rewrite (C (true_dry zero) (true_dry zero)) by (intros [a b]; apply andb_comm).
  rewrite (C (false_wet zero) (missed_wet zero)) by (intros [a b]; apply andb_comm).
  rewrite (C (missed_wet zero) (false_wet zero)) by (intros [a b]; apply andb_comm).
  rewrite (C (fun q => wet zero (snd q)) (fun q => wet zero (fst q))) by (intros [a b]; reflexivity).
  rewrite (C (fun q => wet zero (fst q)) (fun q => wet zero (snd q))) by (intros [a b]; reflexivity).
  rewrite <- M1, <- M3. set (tp := count (true_wet zero) ps). set (tn := count (true_dry zero) ps).
  set (fp := count (false_wet zero) ps). set (fn := count (missed_wet zero) ps).
  assert (SY : (matthews tp tn fn fp : XR) = matthews tp tn fp fn).
  { rewrite !matthews_XR. f_equal; f_equal; ring. }
  split; [|split]; intros A B.
  - rewrite (proj2 (Nat.eqb_neq _ _) A), (proj2 (Nat.eqb_neq _ _) B), SY. reflexivity.
  - rewrite (proj2 (Nat.eqb_neq _ _) A), (proj2 (Nat.eqb_eq _ _) B). split; [reflexivity|].
    rewrite SY, matthews_undefined by (left; exact B). reflexivity.
  - rewrite (proj2 (Nat.eqb_eq _ _) A), (proj2 (Nat.eqb_eq _ _) B). split; reflexivity.
Qed.

(** ** change of the unit of rain rate, exact *)
Definition sc (c : R) (x : XR) : XR := n_mul (XFin c : XR) x.
Section Scale.
Context (c : R) (Hc : (0 < c)%R).
Local Ltac sgn := repeat match goal with
  | |- context [Rcompare ?a ?b] => destruct (Rcompare_spec a b)
  end; try lra.
Lemma sc_def x : sc c x = match x with XFin a => XFin (c * a) | _ => x end.
Proof using Hc. destruct x; auto; unfold sc; cbn; sgn; auto. Qed.
Lemma sc_nan x : n_isnan (sc c x) = n_isnan x.
Proof using Hc. rewrite sc_def. destruct x; auto. Qed.
Lemma sc_add x y : n_add (sc c x) (sc c y) = sc c (n_add x y).
Proof using Hc. rewrite !sc_def. destruct x, y; cbn; auto. f_equal. ring. Qed.
Lemma sc_sub x y : n_sub (sc c x) (sc c y) = sc c (n_sub x y).
Proof using Hc. rewrite !sc_def. destruct x, y; cbn; auto. f_equal. ring. Qed.
Lemma sc_abs x : n_abs (sc c x) = sc c (n_abs x).
Proof using Hc. rewrite !sc_def. destruct x; cbn; auto. f_equal. rewrite Rabs_mult, (Rabs_right c) by lra. reflexivity. Qed.
Lemma sc_ltb x y : n_ltb (sc c x) (sc c y) = n_ltb x y.
Proof using Hc. rewrite !sc_def. destruct x, y; cbn; auto. xcases; auto; nra. Qed.
Lemma sc_zero : sc c zero = zero.
Proof using. unfold sc. cbn. f_equal. ring. Qed.
Lemma sc_sum {A} (f : A -> XR) l : n_sum (map (fun q => sc c (f q)) l) = sc c (n_sum (map f l)).
Proof using Hc.
  unfold n_sum. rewrite <- sc_zero at 1. generalize (zero : XR). induction l as [|q l IH]; intros a; auto. cbn [map fold_left]. rewrite sc_add. apply IH.
Qed.
End Scale.
Lemma sc_div a b x y : (0 < a)%R -> (0 < b)%R -> n_div (sc a x) (sc b y) = sc (a / b) (n_div x y).
Proof.
  intros Ha Hb. assert (H : (0 < a / b)%R) by (apply Rdiv_lt_0_compat; auto). rewrite (sc_def a Ha), (sc_def b Hb), (sc_def (a / b) H).
  destruct x as [| |x|], y as [| |y|]; cbn; auto.
  - destruct (Rlt_bool_spec (b * y) 0), (Rlt_bool_spec y 0); auto; nra.
  - f_equal. ring.
  - destruct (Req_bool_spec (b * y) 0), (Req_bool_spec y 0); try nra.
    + destruct (Rcompare_spec (a * x) 0), (Rcompare_spec x 0); auto; nra.
    + f_equal. field. split; auto; nra.
  - f_equal. ring.
  - destruct (Rlt_bool_spec (b * y) 0), (Rlt_bool_spec y 0); auto; nra.
Qed.
Lemma sc_mul a b x y : (0 < a)%R -> (0 < b)%R -> n_mul (sc a x) (sc b y) = sc (a * b) (n_mul x y).
Proof.
  intros Ha Hb. assert (H : (0 < a * b)%R) by nra. rewrite (sc_def a Ha), (sc_def b Hb), (sc_def (a * b) H).
  destruct x as [| |x|], y as [| |y|]; cbn; auto; try (f_equal; ring);
    repeat match goal with |- context [Rcompare ?u ?v] => destruct (Rcompare_spec u v) end; cbn; auto; nra.
Qed.
Lemma sc_sqrt a x : (0 < a)%R -> n_sqrt (sc (a * a) x) = sc a (n_sqrt x).
Proof.
  intros Ha. assert (H : (0 < a * a)%R) by nra. rewrite (sc_def a Ha), (sc_def (a * a) H). destruct x as [| |x|]; cbn; auto.
  destruct (Rlt_bool_spec (a * a * x) 0), (Rlt_bool_spec x 0); auto; try nra.
  f_equal. rewrite sqrt_mult, sqrt_square by nra. reflexivity.
Qed.
Lemma sc_1 x : sc 1 x = x.
Proof. rewrite sc_def by lra. destruct x; auto. f_equal. ring. Qed.
Lemma sc_mul_l a x y : (0 < a)%R -> n_mul (sc a x) y = sc a (n_mul x y).
Proof. intros Ha. rewrite <- (sc_1 y) at 1. rewrite sc_mul by lra. f_equal. ring. Qed.
Lemma sc_div_l a x y : (0 < a)%R -> n_div (sc a x) y = sc a (n_div x y).
Proof. intros Ha. rewrite <- (sc_1 y) at 1. rewrite sc_div by lra. f_equal. field. Qed.

Section Unit.
Context (c : R) (Hc : (0 < c)%R).
Let s := sc c.
Lemma cc_pos : (0 < c * c)%R. Proof using Hc. nra. Qed.
Lemma mean_sc {A} (f : A -> XR) l a : (0 < a)%R -> n_mean (map (fun q => sc a (f q)) l) = sc a (n_mean (map f l)).
Proof using. intros Ha. unfold n_mean. rewrite (sc_sum a Ha), !map_length. apply sc_div_l, Ha. Qed.
Lemma valid_sc (r p : list XR) : valid_pairs (map s r) (map s p) = map (fun q => (s (fst q), s (snd q))) (valid_pairs r p).
Proof using Hc.
  unfold valid_pairs. revert p. induction r as [|x r IH]; intros [|y p]; auto. cbn [map combine filter fst snd].
  unfold s at 1 2. rewrite !(sc_nan c Hc). destruct (negb (n_isnan x) && negb (n_isnan y)); cbn [map fst snd]; rewrite IH; reflexivity.
Qed.
Lemma std_sc {A} (f : A -> XR) l : np_std (map (fun q => s (f q)) l) = s (np_std (map f l)).
Proof using Hc.
  unfold np_std, v_square. rewrite !centered_map, !map_map. unfold s. rewrite !(mean_sc f l c Hc).
  rewrite (map_ext _ (fun q => sc (c * c) (n_mul (n_abs (n_sub (f q) (n_mean (map f l)))) (n_abs (n_sub (f q) (n_mean (map f l))))))).
  - rewrite (mean_sc _ l _ cc_pos), (sc_sqrt c _ Hc). reflexivity.
  - intros q. unfold s. rewrite (sc_sub c Hc), (sc_abs c Hc), (sc_mul c c _ _ Hc Hc). reflexivity.
Qed.
Lemma cov_sc {A} (f g : A -> XR) l : np_cov (map (fun q => s (f q)) l) (map (fun q => s (g q)) l) = sc (c * c) (np_cov (map f l) (map g l)).
Proof using Hc.
  unfold np_cov. rewrite !centered_map, !v_mul_map, !map_length. unfold s. rewrite (mean_sc f l c Hc), (mean_sc g l c Hc).
  rewrite (map_ext _ (fun q => sc (c * c) (n_mul (n_sub (f q) (n_mean (map f l))) (n_sub (g q) (n_mean (map g l)))))).
  - rewrite (sc_sum _ cc_pos). apply sc_mul_l, cc_pos.
  - intros q. unfold s. rewrite !(sc_sub c Hc), (sc_mul c c _ _ Hc Hc). reflexivity.
Qed.
Lemma corr_sc {A} (f g : A -> XR) l : np_corrcoef (map (fun q => s (f q)) l) (map (fun q => s (g q)) l) = np_corrcoef (map f l) (map g l).
Proof using Hc.
  unfold np_corrcoef. rewrite !cov_sc, !(sc_sqrt c _ Hc), (sc_div _ _ _ _ cc_pos Hc), (sc_div (c * c / c) c) by (auto; apply Rdiv_lt_0_compat; nra).
  replace (c * c / c / c)%R with 1%R by (field; lra). rewrite sc_1. reflexivity.
Qed.

Lemma rain_unit (r p : list XR) n t : length r = n -> length p = n ->
  exists e e', calc_rain_error_performance_metrics (mk_arr [n] r) (mk_arr [n] p) t = Ok e /\
  calc_rain_error_performance_metrics (mk_arr [n] (map s r)) (mk_arr [n] (map s p)) (s t) = Ok e' /\
  pearson_correlation e' = pearson_correlation e /\ coefficient_of_variation e' = coefficient_of_variation e /\
  root_mean_square_error e' = s (root_mean_square_error e) /\ mean_absolute_error e' = s (mean_absolute_error e) /\
  R_sum_reference e' = s (R_sum_reference e) /\ R_sum_predicted e' = s (R_sum_predicted e) /\
  R_mean_reference e' = s (R_mean_reference e) /\ R_mean_predicted e' = s (R_mean_predicted e) /\
  re_false_wet_rate e' = re_false_wet_rate e /\ re_missed_wet_rate e' = re_missed_wet_rate e /\
  false_wet_precipitation_rate e' = s (false_wet_precipitation_rate e) /\
  missed_wet_precipitation_rate e' = s (missed_wet_precipitation_rate e) /\
  re_N_nan_pairs e' = re_N_nan_pairs e /\ re_N_all_pairs e' = re_N_all_pairs e.
Proof using Hc.
  intros H1 H2. assert (E : length r = length p) by congruence.
  assert (E' : length (map s r) = length (map s p)) by (rewrite !map_length; auto).
  rewrite (rain_eval r p n [] t E), (rain_eval _ _ n [] (s t) E'). do 2 eexists. do 2 (split; [reflexivity|]).
  cbn [pearson_correlation coefficient_of_variation root_mean_square_error mean_absolute_error R_sum_reference R_sum_predicted R_mean_reference
       R_mean_predicted re_false_wet_rate re_missed_wet_rate false_wet_precipitation_rate missed_wet_precipitation_rate re_N_nan_pairs re_N_all_pairs].
  assert (NP : b_sum (nan_index (map s r) (map s p)) = b_sum (nan_index r p)).
  { pose proof (nan_count r p E) as A. pose proof (nan_count _ _ E') as B. rewrite valid_sc, !map_length in B. lia. }
  rewrite valid_sc. set (ps := valid_pairs r p). rewrite !count_map, !map_map. cbn [fst snd].
  unfold v_square. rewrite !v_sub_map, !map_map.
  assert (D : forall g : XR -> XR, map (fun q : XR * XR => g (n_sub (s (snd q)) (s (fst q)))) ps = map (fun q => g (s (n_sub (snd q) (fst q)))) ps).
  { intros g. apply map_ext. intros q. unfold s. rewrite (sc_sub c Hc). reflexivity. }
  assert (F : forall f g : XR * XR -> bool, (forall q, f (s (fst q), s (snd q)) = g q) ->
     filter f (map (fun q => (s (fst q), s (snd q))) ps) = map (fun q => (s (fst q), s (snd q))) (filter g ps)).
  { intros f g H. rewrite filter_map_comm. f_equal. apply filter_ext. exact H. }
  assert (W : forall x, wet (s t) (s x) = wet t x) by (intros; apply (sc_ltb c Hc)).
  assert (Y : forall x, dry (s t) (s x) = dry t x) by (intros x; unfold dry; f_equal; apply (sc_ltb c Hc)).
  split; [exact (corr_sc fst snd ps)|].
  split. { rewrite (D (fun x => x)), std_sc. unfold s. rewrite (mean_sc fst ps c Hc), (sc_div c c _ _ Hc Hc). replace (c / c)%R with 1%R by (field; lra). apply sc_1. }
  split. { rewrite (D (fun x => n_mul x x)). rewrite (map_ext _ (fun q => sc (c * c) (n_mul (n_sub (snd q) (fst q)) (n_sub (snd q) (fst q))))).
           - rewrite (mean_sc _ ps _ cc_pos). apply (sc_sqrt c _ Hc).
           - intros q. unfold s. apply (sc_mul c c _ _ Hc Hc). }
  split. { rewrite (D n_abs). rewrite (map_ext _ (fun q => sc c (n_abs (n_sub (snd q) (fst q))))) by (intros q; apply (sc_abs c Hc)). apply (mean_sc _ ps c Hc). }
  split; [apply (sc_sum c Hc)|]. split; [apply (sc_sum c Hc)|]. split; [apply (mean_sc _ ps c Hc)|]. split; [apply (mean_sc _ ps c Hc)|].
  unfold false_wet, missed_wet. cbn [fst snd].
  assert (CE : forall f g : XR * XR -> bool, (forall q, f q = g q) -> count f ps = count g ps).
  { intros f g H. unfold count. f_equal. apply filter_ext. exact H. }
  split. { f_equal; apply CE; intros q; rewrite ?W, ?Y; reflexivity. }
  split. { f_equal; apply CE; intros q; rewrite ?W, ?Y; reflexivity. }
  split. { rewrite (F _ (fun q => dry t (fst q) && wet t (snd q))) by (intros q; cbn [fst snd]; rewrite W, Y; reflexivity). rewrite map_map. apply (mean_sc _ _ c Hc). }
  split. { rewrite (F _ (fun q => wet t (fst q) && dry t (snd q))) by (intros q; cbn [fst snd]; rewrite W, Y; reflexivity). rewrite map_map. apply (mean_sc _ _ c Hc). }
  split; [exact NP|reflexivity].
Qed.
End Unit.
