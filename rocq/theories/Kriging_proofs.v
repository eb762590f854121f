(** Proofs about the kriging interpolator and grids of integers. *)
From Coq Require Import List ZArith Bool Lia Arith.
From Verif Require Import Base Num NumList NpOps Libm Idw_model Idw_spec Idw_proofs3 Kriging_model Kriging_spec.
Import ListNotations.
Local Open Scope nat_scope.

Section P.
Context {O : numops} (S : numsem O).
Variable krige : list O -> list O -> list O -> list O -> list O -> res (list O * list O).

Lemma all_nan_iff (z : list O) : forallb n_isnan z = true <-> forall v, In v z -> n_isnan v = true.
Proof. apply forallb_forall. Qed.

(** the model of the IDW interpolator is an instance *)
Lemma idw_instance (L : libm O) query (s : interp O) x y z rows cols xg yg :
  points_to_grid (interpol_func L query) s x y z rows cols (FloatGrid xg) (FloatGrid yg)
  = interp_call L query s x y z rows cols xg yg.
Proof. reflexivity. Qed.

Lemma int_grid_all_nan {St} interpol (s : St) (x y z : list O) rows cols xg yg :
  length x = length z -> length y = length z -> (forall v, In v z -> n_isnan v = true) ->
  points_to_grid interpol s x y z rows cols (IntGrid xg) yg = (s, Err ValueError).
Proof.
  intros Hx Hy H. unfold points_to_grid. rewrite Hx, Hy, Nat.eqb_refl. cbn [andb negb].
  rewrite (proj2 (all_nan_iff z) H). reflexivity.
Qed.

Lemma float_grid_all_nan {St} interpol (s : St) (x y z : list O) rows cols xg yg :
  length x = length z -> length y = length z -> (forall v, In v z -> n_isnan v = true) ->
  points_to_grid interpol s x y z rows cols (FloatGrid xg) yg = (s, Ok (repeat (repeat n_nan cols) rows)).
Proof.
  intros Hx Hy H. unfold points_to_grid. rewrite Hx, Hy, Nat.eqb_refl. cbn [andb negb].
  rewrite (proj2 (all_nan_iff z) H). reflexivity.
Qed.

(** otherwise the type of the grid does not matter *)
Lemma int_grid_otherwise {St} interpol (s : St) (x y z : list O) rows cols xg yg :
  (exists v, In v z /\ n_isnan v = false) ->
  points_to_grid interpol s x y z rows cols (IntGrid xg) (IntGrid yg)
  = points_to_grid interpol s x y z rows cols (FloatGrid (map (map n_ofZ) xg)) (FloatGrid (map (map n_ofZ) yg)).
Proof.
  intros (v & Hv & E). unfold points_to_grid.
  destruct (forallb n_isnan z) eqn:F; [|reflexivity].
  rewrite (proj1 (all_nan_iff z) F v Hv) in E. discriminate.
Qed.

Lemma lengths_differ {St} interpol (s : St) (x y z : list O) rows cols xg yg :
  length x <> length y \/ length y <> length z ->
  points_to_grid interpol s x y z rows cols xg yg = (s, Err AssertionError).
Proof.
  intros H. unfold points_to_grid.
  assert (Nat.eqb (length x) (length y) && Nat.eqb (length y) (length z) = false) as ->; auto.
  apply andb_false_iff. rewrite !Nat.eqb_neq. lia.
Qed.

Lemma reshape_rect {A} rows cols (v : list A) : length v = rows * cols ->
  length (reshape rows cols v) = rows /\ (forall r, In r (reshape rows cols v) -> length r = cols) /\ concat (reshape rows cols v) = v.
Proof.
  revert v. induction rows as [|rows IH]; intros v H; simpl in *.
  - destruct v; [|discriminate]. split; auto. split; [intros r []|auto].
  - destruct (IH (skipn cols v)) as (A1 & A2 & A3); [rewrite skipn_length; lia|].
    split; [rewrite A1; auto|]. split.
    + intros r [<-|Hr]; [rewrite firstn_length; lia|auto].
    + rewrite A3. apply firstn_skipn.
Qed.

Lemma keep_present (z a : list O) : length a = length z -> mask_select n_nan (map (fun v => negb (n_isnan v)) z) a = present z a.
Proof. intros. apply mask_select_present; auto. Qed.

Lemma krige_result s x y z rows cols xg yg :
  length x = length z -> length y = length z -> (exists v, In v z /\ n_isnan v = false) ->
  let sel a := if k_exclude_nan s then present z a else a in
  let out := krige (sel x) (sel y) (sel z) (concat (grid_values xg)) (concat (grid_values yg)) in
  let '(s', r) := krige_call krige s x y z rows cols xg yg in
  k_z s' = Some (sel z) /\
  (forall e, out = Err e -> r = Err e /\ k_sigma s' = k_sigma s) /\
  (forall zi sigma, out = Ok (zi, sigma) ->
     k_sigma s' = Some sigma /\
     (length zi <> rows * cols -> r = Err ValueError) /\
     (length zi = rows * cols -> exists zg, r = Ok zg /\ rectangular rows cols zg /\ concat zg = zi)).
Proof.
  intros Hx Hy (v & Hv & E) sel out. unfold krige_call, points_to_grid. rewrite Hx, Hy, Nat.eqb_refl. cbn [andb negb].
  destruct (forallb n_isnan z) eqn:F; [rewrite (proj1 (all_nan_iff z) F v Hv) in E; discriminate|].
  unfold krige_func. rewrite !keep_present by auto. fold (sel x). fold (sel y). fold (sel z). fold out.
  destruct out as [[zi sigma]|e]; cbn [bind].
  - split; auto. split; [discriminate|]. intros zi' sigma' H. injection H as <- <-. split; auto. split; intros H.
    + apply Nat.eqb_neq in H. rewrite H. reflexivity.
    + destruct (reshape_rect rows cols zi H) as (A1 & A2 & A3). rewrite H, Nat.eqb_refl. eexists. split; [reflexivity|]. split; auto. split; auto.
  - split; auto. split; [|discriminate]. intros e' H. injection H as <-. auto.
Qed.

Lemma krige_exclude_nan s x y z rows cols xg yg :
  k_exclude_nan s = true -> (exists v, In v z /\ n_isnan v = false) -> length x = length z -> length y = length z ->
  krige_call krige s x y z rows cols xg yg = krige_call krige s (present z x) (present z y) (present z z) rows cols xg yg.
Proof.
  intros HE (v & Hv & E) Hx Hy. unfold krige_call, points_to_grid.
  assert (HN : forallb n_isnan z = false).
  { destruct (forallb n_isnan z) eqn:F; auto. rewrite (proj1 (all_nan_iff z) F v Hv) in E. discriminate. }
  rewrite Hx, Hy, (present_length z x), (present_length z y), !Nat.eqb_refl by auto. cbn [andb negb]. rewrite HN.
  assert (HN' : forallb n_isnan (present z z) = false).
  { pose proof (present_no_nan z) as P. destruct (present z z) as [|w l] eqn:EP; [apply present_nonempty in HN; congruence|].
    cbn [forallb]. rewrite (P w) by (left; auto). auto. }
  rewrite HN'. unfold krige_func. rewrite HE. cbv zeta.
  rewrite !(mask_select_present z) by auto.
  pose proof (present_length z x Hx) as Px. pose proof (present_length z y Hy) as Py.
  rewrite !(mask_select_present (present z z)) by auto.
  rewrite !(present_id (present z z)) by (auto; apply present_no_nan). reflexivity.
Qed.

(** ** histories *)
Lemma call_keeps s a : k_exclude_nan (fst (call krige s a)) = k_exclude_nan s.
Proof.
  unfold call, krige_call, points_to_grid. destruct (negb _); [reflexivity|]. destruct (forallb _ _); [reflexivity|].
  unfold krige_func. destruct (krige _ _ _ _ _) as [[zi sg]|]; reflexivity.
Qed.
Lemma call_result_fresh s a : snd (call krige s a) = snd (call krige (new_kriging (k_exclude_nan s)) a).
Proof.
  unfold call, krige_call, points_to_grid. destruct (negb _); [reflexivity|]. destruct (forallb _ _); [reflexivity|].
  unfold krige_func, new_kriging. cbn [k_exclude_nan]. destruct (krige _ _ _ _ _) as [[zi sg]|]; reflexivity.
Qed.

Lemma krige_history l : forall s, results krige s l = map (fun a => snd (call krige (new_kriging (k_exclude_nan s)) a)) l.
Proof.
  induction l as [|a l IH]; intros s; cbn [results map]; auto.
  pose proof (call_keeps s a) as K. pose proof (call_result_fresh s a) as F.
  destruct (call krige s a) as [s' r] eqn:E. cbn [fst snd] in *. rewrite F. f_equal. rewrite IH, K. reflexivity.
Qed.

(** ** the attribute sigma after a time step without data *)
Lemma stale_sigma s a : length (c_x a) = length (c_z a) -> length (c_y a) = length (c_z a) ->
  (forall v, In v (c_z a) -> n_isnan v = true) -> fst (call krige s a) = s.
Proof.
  intros Hx Hy H. unfold call, krige_call.
  destruct (c_xgrid a) as [g|g]; [rewrite float_grid_all_nan by auto|rewrite int_grid_all_nan by auto]; reflexivity.
Qed.
End P.
