(** * Proofs about feature scaling (exact arithmetic) *)
From Coq Require Import List ZArith Bool Reals Lra Lia.
From Flocq Require Import Core.Raux.
From Verif Require Import Base Num NumList RealSpec RealStat KR_proofs Stats_proofs3 Stats_proofs4 TfInfer_model TfInfer_spec.
Import ListNotations.
Local Open Scope nat_scope.

(** scale used by the scaler *)
Definition rscale (l : list R) : R :=
  let n := INR (length l) in let eps := (/ 2 ^ 52)%R in
  if Rle_bool (rvar l) (n * eps * rvar l + (n * rmean l * eps) * (n * rmean l * eps))%R then 1%R else sqrt (rvar l).

Lemma rvar_def l : rvar l = (rsum (map (fun x => (x - rmean l) * (x - rmean l)) l) / INR (length l))%R.
Proof. unfold rvar. unfold rmean at 1. rewrite map_length. reflexivity. Qed.
Lemma eps_XR : n_div (n_ofZ 1 : XR) (n_ofZ (2 ^ 52)) = (XFin (/ 2 ^ 52) : XR).
Proof.
  change (n_ofZ 1 : XR) with (XFin 1 : XR). change (n_ofZ (2 ^ 52) : XR) with (XFin (IZR (2 ^ 52)) : XR).
  rewrite xdiv_fin' by (apply not_0_IZR; discriminate). apply f_equal. unfold Rdiv. rewrite Rmult_1_l. f_equal.
  rewrite pow_IZR. reflexivity.
Qed.

Lemma fit_XR l : l <> [] -> fit_scaler (ofR l) = ((XFin (rmean l) : XR), (XFin (rscale l) : XR)).
Proof.
  intros NE. pose proof (INR_length_pos l NE) as P. unfold fit_scaler. cbv zeta. rewrite eps_XR, ofR_length, n_sum_ofR.
  change (n_ofZ (Z.of_nat (length l)) : XR) with (XFin (IZR (Z.of_nat (length l))) : XR). rewrite <- INR_IZR_INZ.
  rewrite xdiv_fin' by lra. change (rsum l / INR (length l))%R with (rmean l).
  assert (E : map (fun x : XR => n_mul (n_sub x (XFin (rmean l) : XR)) (n_sub x (XFin (rmean l) : XR))) (ofR l) = ofR (map (fun x => (x - rmean l) * (x - rmean l))%R l)).
  { unfold ofR. rewrite !map_map. apply map_ext. intros x. reflexivity. }
  rewrite E, n_sum_ofR, xdiv_fin' by lra.
  assert (EV : (rsum (map (fun x => (x - rmean l) * (x - rmean l)) l) / INR (length l))%R = rvar l).
  { rewrite rvar_def. reflexivity. }
  rewrite EV.
  change (n_mul (n_mul (XFin (INR (length l)) : XR) (XFin (rmean l) : XR)) (XFin (/ 2 ^ 52) : XR)) with (XFin (INR (length l) * rmean l * / 2 ^ 52) : XR).
  set (b := (INR (length l) * rmean l * / 2 ^ 52)%R).
  match goal with |- (_, if n_leb ?v ?u then _ else _) = _ => 
    change (n_leb v u) with (Rle_bool (rvar l) (INR (length l) * / 2 ^ 52 * rvar l + b * b)) end.
  f_equal. unfold rscale. cbv zeta. fold b. destruct (Rle_bool _ _); [reflexivity|].
  apply sqrt_fin. unfold rvar. rewrite <- (map_map (fun x => x - rmean l)%R (fun y => y * y)%R). apply rmean_sq_nonneg.
Qed.

Lemma rvar_nonneg l : (0 <= rvar l)%R.
Proof. unfold rvar. rewrite <- (map_map (fun x => x - rmean l)%R (fun y => y * y)%R). apply rmean_sq_nonneg. Qed.
Lemma rscale_pos l : (0 < rscale l)%R.
Proof.
  unfold rscale. cbv zeta. destruct (Rle_bool_spec (rvar l) (INR (length l) * / 2 ^ 52 * rvar l + INR (length l) * rmean l * / 2 ^ 52 * (INR (length l) * rmean l * / 2 ^ 52))) as [H|H]; [lra|].
  apply sqrt_lt_R0. pose proof (rvar_nonneg l) as [V|V]; auto. rewrite <- V in H. exfalso.
  set (q := (INR (length l) * rmean l * / 2 ^ 52)%R) in *. nra.
Qed.
Lemma rscale_near l : nearly_constant l -> rscale l = 1%R.
Proof. intros H. unfold rscale. cbv zeta. unfold nearly_constant in H. rewrite Rle_bool_true; auto. Qed.
Lemma rscale_far l : ~ nearly_constant l -> rscale l = sqrt (rvar l) /\ (0 < rvar l)%R.
Proof.
  intros H. unfold nearly_constant in H. unfold rscale. cbv zeta. rewrite Rle_bool_false by lra. split; auto.
  pose proof (rvar_nonneg l) as [V|V]; auto. exfalso. apply H. rewrite <- V. set (q := (INR (length l) * rmean l * / 2 ^ 52)%R). nra.
Qed.

Definition rz (l : list R) (x : R) : R := ((x - rmean l) / rscale l)%R.
Lemma rsum_center l : l <> [] -> rsum (map (fun x => x - rmean l)%R l) = 0%R.
Proof.
  intros NE. pose proof (INR_length_pos l NE) as P.
  assert (E : rsum (map (fun x => x + (- rmean l))%R l) = (rsum (map (fun x => x) l) + rsum (map (fun _ => - rmean l) l))%R) by apply rsum_map_add.
  rewrite map_id, rsum_map_const in E. unfold Rminus. rewrite E. unfold rmean. field. lra.
Qed.
Lemma rz_mean l : l <> [] -> rmean (map (rz l) l) = 0%R.
Proof.
  intros NE. unfold rmean. assert (E : rsum (map (rz l) l) = rsum (map (fun x => / rscale l * (x - rmean l))%R l)).
  { apply rsum_map_ext'. intros. unfold rz, Rdiv. ring. }
  rewrite E, rsum_map_scal, rsum_center by auto. unfold Rdiv. ring.
Qed.
Lemma rz_var l : l <> [] -> ~ nearly_constant l -> rvar (map (rz l) l) = 1%R.
Proof.
  intros NE NC. destruct (rscale_far l NC) as [Es Pv]. unfold rvar. rewrite rz_mean by auto. rewrite map_map.
  unfold rmean at 1. rewrite map_length.
  assert (E : rsum (map (fun x => (rz l x - 0) * (rz l x - 0)) l)%R = rsum (map (fun x => / rvar l * ((x - rmean l) * (x - rmean l)))%R l)).
  { apply rsum_map_ext'. intros x _. unfold rz. rewrite Es. pose proof (sqrt_sqrt (rvar l) (rvar_nonneg l)) as Q. pose proof (sqrt_lt_R0 _ Pv) as S0.
    set (s := sqrt (rvar l)) in *. clearbody s. rewrite <- Q. field. lra. }
  rewrite E, rsum_map_scal. pose proof (INR_length_pos l NE) as P.
  assert (EV : rsum (map (fun x => (x - rmean l) * (x - rmean l)) l)%R = (rvar l * INR (length l))%R).
  { rewrite rvar_def. field. lra. }
  rewrite EV. field. lra.
Qed.
Lemma constant_rz l c : l <> [] -> (forall x, In x l -> x = c) -> forall x, In x l -> rz l x = 0%R.
Proof.
  intros NE H x Hx. assert (E : rmean l = c). { pose proof (rmean_bounds l c c NE) as Q. assert (c <= rmean l <= c)%R; [apply Q; intros y Hy; rewrite (H y Hy); lra|lra]. }
  unfold rz. rewrite E, (H x Hx). unfold Rdiv. ring.
Qed.
Lemma constant_near l c : l <> [] -> (forall x, In x l -> x = c) -> nearly_constant l.
Proof.
  intros NE H. assert (E : rmean l = c). { pose proof (rmean_bounds l c c NE) as Q. assert (c <= rmean l <= c)%R; [apply Q; intros y Hy; rewrite (H y Hy); lra|lra]. }
  assert (V : rvar l = 0%R).
  { unfold rvar. unfold rmean at 1. rewrite (rsum_map_ext' _ (fun _ => 0%R)); [rewrite rsum_map_const; unfold Rdiv; ring|]. intros x Hx. rewrite E, (H x Hx). ring. }
  unfold nearly_constant. cbv zeta. rewrite V. set (q := (INR (length l) * rmean l * / 2 ^ 52)%R). nra.
Qed.

(** ** arrays *)
Definition rscaled (F : nat) (X : list (list (list R))) : list (list (list R)) :=
  map (map (fun row => map (fun i => rz (featR i X) (rget row i)) (seq 0 F))) X.

Lemma feature_XR i F X : rectangular F X -> i < F -> feature i (ofR3 X) = ofR (featR i X).
Proof.
  intros HR Hi. unfold feature, ofR3, featR. rewrite map_map. induction X as [|w X IH]; auto. cbn [map List.concat].
  rewrite IH by (intros w' row Hw; apply HR; right; auto). unfold ofR at 3. rewrite map_app. f_equal. rewrite !map_map.
  apply map_ext_in. intros row Hrow. unfold nget. apply ofR_get. rewrite (HR w row); auto. left; auto.
Qed.
Lemma featR_nonempty i X w row : In w X -> In row w -> featR i X <> [].
Proof.
  intros Hw Hr E. assert (In (rget row i) (featR i X)); [|rewrite E in *; contradiction].
  unfold featR. apply in_concat. exists (map (fun row => rget row i) w). split; [apply in_map_iff; eauto|]. apply in_map_iff. eauto.
Qed.

Lemma scale_features_XR F X : rectangular F X -> scale_features (ofR3 X) F F = Ok (ofR3 (rscaled F X)).
Proof.
  intros HR. unfold scale_features. rewrite Nat.ltb_irrefl. f_equal. unfold rscaled, ofR3. rewrite !map_map.
  apply map_ext_in. intros w Hw. rewrite !map_map. apply map_ext_in. intros row Hrow. pose proof (HR w row Hw Hrow) as Lr.
  apply (get_ext (n_nan : XR)).
  - rewrite map2_length, !map_length by (rewrite map_length, seq_length, ofR_length; auto). rewrite ofR_length, map_length, !seq_length. reflexivity.
  - intros i Hi. rewrite map2_length, map_length, seq_length in Hi by (rewrite map_length, seq_length, ofR_length; auto).
    rewrite (get_map2 _ ((n_nan : XR), (n_nan : XR)) (n_nan : XR)); rewrite ?map_length, ?seq_length, ?ofR_length; auto.
    rewrite get_map_seq by auto. rewrite ofR_get by lia. rewrite ofR_get by (rewrite map_length, seq_length; auto).
    unfold rget at 2. rewrite get_map_seq by auto. fold (ofR3 X). change (map (map ofR) X) with (ofR3 X). rewrite (feature_XR i F) by auto.
    rewrite fit_XR by (eapply featR_nonempty; eauto). unfold transform. cbn [fst snd].
    change (n_sub (XFin (rget row i) : XR) (XFin (rmean (featR i X)) : XR)) with (XFin (rget row i - rmean (featR i X)) : XR).
    rewrite xdiv_fin' by (pose proof (rscale_pos (featR i X)); lra). reflexivity.
Qed.
Lemma featR_scaled i F X : rectangular F X -> i < F -> featR i (rscaled F X) = map (rz (featR i X)) (featR i X).
Proof.
  intros HR Hi. unfold featR at 1 3. unfold rscaled. rewrite concat_map, !map_map. f_equal. apply map_ext_in. intros w Hw. rewrite !map_map. apply map_ext_in. intros row Hrow.
  unfold rget at 1. rewrite get_map_seq by auto. reflexivity.
Qed.

Lemma scaling_correct F X : rectangular F X -> (exists w row, In w X /\ In row w) ->
  exists Z, scale_features (ofR3 X) F F = Ok (ofR3 Z) /\ map (map (@length R)) Z = map (map (@length R)) X /\
  forall i, i < F ->
    rmean (featR i Z) = 0%R /\
    (~ nearly_constant (featR i X) -> rvar (featR i Z) = 1%R) /\
    (forall c, (forall x, In x (featR i X) -> x = c) -> forall z, In z (featR i Z) -> z = 0%R) /\
    (nearly_constant (featR i X) -> featR i Z = map (fun x => x - rmean (featR i X))%R (featR i X)).
Proof.
  intros HR (w & row & Hw & Hrow). exists (rscaled F X). split; [apply scale_features_XR; auto|]. split.
  { unfold rscaled. rewrite map_map. apply map_ext_in. intros v Hv. rewrite map_map. apply map_ext_in. intros r Hr. rewrite map_length, seq_length. symmetry. eapply HR; eauto. }
  intros i Hi. rewrite (featR_scaled i F X HR Hi). assert (NE : featR i X <> []) by (eapply featR_nonempty; eauto).
  split; [apply rz_mean; auto|]. split; [apply rz_var; auto|]. split.
  - intros c Hc z Hz. apply in_map_iff in Hz. destruct Hz as (x & <- & Hx). eapply constant_rz; eauto.
  - intros NC. apply map_ext. intros x. unfold rz. rewrite (rscale_near _ NC). field.
Qed.
(** features do not influence each other *)
Lemma scaling_independent F X Y i Z Z' : rectangular F X -> rectangular F Y -> i < F -> featR i X = featR i Y ->
  scale_features (ofR3 X) F F = Ok (ofR3 Z) -> scale_features (ofR3 Y) F F = Ok (ofR3 Z') -> featR i Z = featR i Z'.
Proof.
  assert (INJ : forall A B, ofR3 A = ofR3 B -> A = B).
  { assert (I1 : forall a b, ofR a = ofR b -> a = b).
    { induction a as [|x a IH]; intros [|y b] E; try discriminate; auto. unfold ofR in E. cbn in E. injection E as E1 E2. f_equal; auto. }
    assert (I2 : forall a b, map ofR a = map ofR b -> a = b).
    { induction a as [|x a IH]; intros [|y b] E; try discriminate; auto. cbn in E. injection E as E1 E2. f_equal; auto. }
    induction A as [|x a IH]; intros [|y b] E; try discriminate; auto. unfold ofR3 in E. cbn in E. injection E as E1 E2. f_equal; auto. }
  intros HX HY Hi E EX EY. rewrite scale_features_XR in EX, EY by auto. injection EX as EX. injection EY as EY. apply INJ in EX, EY. subst.
  rewrite !featR_scaled by auto. rewrite E. reflexivity.
Qed.
