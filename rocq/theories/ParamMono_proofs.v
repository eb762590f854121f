(** * Effect of thresholds and correction parameters *)
From Coq Require Import List ZArith Bool String Reals Lra Lia Arith.
From Flocq Require Import Core.
From Verif Require Import Base Num NumList NpOps RealSpec RealStat Libm KR_model KR_spec KR_proofs Median Blackout_model Blackout_spec Blackout_proofs
  NearbyWetdry_model Baseline_model Schleiss_model Schleiss_spec Schleiss_proofs Chain_model Chain_spec Chain_proofs
  Pastorek_spec NearbyRain_model NearbyRain_spec NearbyRain_proofs ObsChain_proofs NearbyRobust_spec NearbyRobust_proofs ParamMono_spec.
Import ListNotations.
Local Open Scope nat_scope.
Local Notation length := List.length.

(** ** nearby-link classification *)
Lemma Forall2_same {A} (R : A -> A -> Prop) l : (forall x, In x l -> R x x) -> Forall2 R l l.
Proof. induction l; intros H; constructor; [apply H; left; auto|apply IHl; intros; apply H; right; auto]. Qed.
Lemma Forall2_len {A B} (R : A -> B -> Prop) l l' : Forall2 R l l' -> length l = length l'.
Proof. induction 1; simpl; auto. Qed.
Lemma Forall2_upd {A} (R : A -> A -> Prop) i x x' : R x x' -> forall l l', Forall2 R l l' -> Forall2 R (upd i x l) (upd i x' l').
Proof. intros Hx l l' H. revert i. induction H; intros [|i]; simpl; constructor; auto. Qed.
Lemma Forall2_get {A} (R : A -> A -> Prop) d i : R d d -> forall l l', Forall2 R l l' -> R (get d l i) (get d l' i).
Proof. intros Hd l l' H. revert i. induction H; intros [|i]; simpl; auto. Qed.
Lemma Forall2_map2 {A A' B B' C C'} (R : A -> A' -> Prop) (Q : B -> B' -> Prop) (T : C -> C' -> Prop) (f : A -> B -> C) (f' : A' -> B' -> C') :
  (forall x x' y y', R x x' -> Q y y' -> T (f x y) (f' x' y')) ->
  forall a a', Forall2 R a a' -> forall b b', Forall2 Q b b' -> Forall2 T (map2 f a b) (map2 f' a' b').
Proof. intros H a a' HA. induction HA as [|x x' l l' Hx Hl IH]; intros b b' HB; [constructor|]. destruct HB as [|y y' m m' Hy Hm]; [constructor|]. simpl. constructor; [apply H; auto|apply IH; auto]. Qed.
Lemma Forall2_map_same {A B C} (T : B -> C -> Prop) (f : A -> B) (f' : A -> C) l : (forall x, In x l -> T (f x) (f' x)) -> Forall2 T (map f l) (map f' l).
Proof. induction l; intros H; simpl; constructor; [apply H; left; auto|apply IHl; intros; apply H; right; auto]. Qed.

Section Classify.
Context {O : numops} (S : numsem O).

Lemma not_nan_one : n_isnan (n_ofZ 1 : O) = false.
Proof. apply (isnan_ofZ S); simpl; discriminate. Qed.
Lemma not_nan_zero : n_isnan (n_ofZ 0 : O) = false.
Proof. apply (isnan_ofZ S); simpl; discriminate. Qed.
Lemma nan_nan : n_isnan (n_nan : O) = true.
Proof. rewrite (val_isnan _ S), (val_nan _ S). reflexivity. Qed.
Lemma one_one : n_eqb (n_ofZ 1 : O) (n_ofZ 1) = true.
Proof. apply (eqb_refl_num S). apply not_nan_one. Qed.
Lemma ltb_leb_trans (x y z : O) : n_ltb x y = true -> n_leb y z = true -> n_ltb x z = true.
Proof.
  rewrite !(val_ltb _ S), (val_leb _ S). destruct (val S x), (val S y), (val S z); simpl; try discriminate; auto.
  destruct (Rlt_bool_spec r r0); [|discriminate]. destruct (Rle_bool_spec r0 r1); [|discriminate]. intros _ _. apply Rlt_bool_true. lra.
Qed.

Definition imp (a b : bool) : Prop := a = true -> b = true.

Definition paint (c : bool) (x : O) : O := if c then one else x.
Definition keep_nan (w0 w : O) : O := if n_isnan w0 then n_nan else w.
Lemma painted w0 w0' : Forall2 (@stays_wet O) w0 w0' -> forall c1 c1' c2 c2' c3 c3', Forall2 imp c1 c1' -> Forall2 imp c2 c2' -> Forall2 imp c3 c3' ->
  Forall2 (@stays_wet O) (map2 keep_nan w0 (map2 paint c3 (map2 paint c2 (map2 paint c1 w0)))) (map2 keep_nan w0' (map2 paint c3' (map2 paint c2' (map2 paint c1' w0')))).
Proof.
  induction 1 as [|x x' l l' Hx Hl IH]; intros c1 c1' c2 c2' c3 c3' H1 H2 H3.
  - destruct H1, H2, H3; constructor.
  - destruct H1 as [|a a' c1 c1' H1 T1]; [destruct H2, H3; constructor|]. destruct H2 as [|b b' c2 c2' H2 T2]; [destruct H3; constructor|].
    destruct H3 as [|c c' c3 c3' H3 T3]; [constructor|]. simpl. constructor; [|apply IH; auto].
    unfold keep_nan, paint, imp in *. cbn [fst snd]. destruct Hx as [[-> ->]|[[-> Hx]|[-> ->]]].
    + rewrite nan_nan. left; auto.
    + rewrite not_nan_zero. assert (n_isnan x' = false) as -> by (destruct Hx as [-> | ->]; [apply not_nan_zero|apply not_nan_one]).
      destruct a, b, c; try (rewrite H1 by auto); try (rewrite H2 by auto); try (rewrite H3 by auto); destruct a', b', c';
        first [right; right; split; reflexivity | right; left; split; [reflexivity|tauto]].
    + rewrite not_nan_one. right; right. split; [destruct a, b, c|destruct a', b', c']; reflexivity.
Qed.

Lemma shift_imp s l l' : Forall2 imp l l' -> Forall2 imp (shift s l) (shift s l').
Proof.
  intros H. unfold shift. rewrite (Forall2_len _ _ _ H). apply Forall2_map_same. intros t _. unfold imp.
  destruct (_ || _); auto. apply (Forall2_get imp false); auto. unfold imp. auto.
Qed.

(** the two results of one link *)
Definition link_rel (r r' : res (option (list O * list O))) : Prop :=
  match r, r' with
  | Ok None, Ok None => True
  | Ok (Some (w, f)), Ok (Some (w', f')) => Forall2 (@stays_wet O) w w' /\ f' = f
  | Err e, Err e' => e' = e
  | _, _ => False
  end.

Lemma classify_mono T within dP dPL (tP tPL tP' tPL' : O) ml interval tp cml : n_leb tP tP' = true -> n_leb tPL tPL' = true ->
  link_rel (classify_link T within dP dPL tP tPL ml interval tp cml) (classify_link T within dP dPL tP' tPL' ml interval tp cml).
Proof.
  intros H1 H2. unfold classify_link. cbv zeta. destruct (Nat.ltb _ _); [|exact I]. destruct (negb _); [reflexivity|].
  destruct (rolling _ _ _ _) as [sums|e]; [|reflexivity]. cbn [bind link_rel]. split; [|reflexivity].
  set (mP := map _ (seq 0 T)). set (mPL := map _ (seq 0 T)).
  set (rule := fun (a b : O) (p pl : O) => if n_isnan p || n_isnan pl then (n_nan : O) else if n_ltb p a && n_ltb pl b then one else zero).
  assert (HW : Forall2 (@stays_wet O) (map2 (rule tP tPL) mP mPL) (map2 (rule tP' tPL') mP mPL)).
  { apply (Forall2_map2 eq eq); [|apply Forall2_same; auto|apply Forall2_same; auto]. intros x ? y ? <- <-. unfold rule.
    destruct (n_isnan x || n_isnan y); [left; auto|].
    destruct (n_ltb x tP && n_ltb y tPL) eqn:E.
    - apply andb_prop in E as [E1 E2]. rewrite (ltb_leb_trans _ _ _ E1 H1), (ltb_leb_trans _ _ _ E2 H2). right; right; auto.
    - right; left. split; auto. destruct (n_ltb x tP' && n_ltb y tPL'); auto. }
  fold (rule tP tPL) (rule tP' tPL'). set (w0 := map2 (rule tP tPL) mP mPL) in *. set (w0' := map2 (rule tP' tPL') mP mPL) in *.
  cbn [fold_left].
  assert (HC : Forall2 imp (map2 (fun w p : O => n_eqb w one && n_ltb p (n_ofZ (-2))) w0 (get [] dP cml)) (map2 (fun w p : O => n_eqb w one && n_ltb p (n_ofZ (-2))) w0' (get [] dP cml))).
  { apply (Forall2_map2 (@stays_wet O) eq); [|exact HW|apply Forall2_same; auto]. intros x x' y ? Hx <-. unfold imp. intros E. apply andb_prop in E as [E1 ->].
    rewrite andb_true_r. unfold one in *. destruct Hx as [[-> ->]|[[-> [-> | ->]]|[-> ->]]]; first [exact E1|exact one_one]. }
  apply painted; auto; apply shift_imp; auto.
Qed.

Definition call_rel (r r' : res (list (list O) * list (list O))) : Prop :=
  match r, r' with
  | Ok (w, f), Ok (w', f') => Forall2 (Forall2 (@stays_wet O)) w w' /\ f' = f
  | Err e, Err e' => e' = e
  | _, _ => False
  end.
Lemma wetdry_mono T pmin lens d radius (tP tPL tP' tPL' : O) ml interval tp mh : n_leb tP tP' = true -> n_leb tPL tPL' = true ->
  call_rel (nearby_wetdry T pmin lens d radius tP tPL ml interval tp mh) (nearby_wetdry T pmin lens d radius tP' tPL' ml interval tp mh).
Proof.
  intros H1 H2. unfold nearby_wetdry. destruct (Nat.eqb interval 0); [reflexivity|]. cbv zeta. destruct (negb _); [reflexivity|].
  destruct (mapM _ _) as [mx|e]; [|reflexivity]. cbn [bind].
  assert (G : forall idx st st', Forall2 (Forall2 (@stays_wet O)) (fst st) (fst st') -> snd st' = snd st ->
    call_rel (for_range_res idx (fun cml st => do r <- classify_link T (within_r d radius) (map2 (map2 n_sub) pmin mx)
        (map2 (fun row l => map (fun x => n_div x l) row) (map2 (map2 n_sub) pmin mx) lens) tP tPL ml interval tp cml;
       match r with None => Ok st | Some (w, f) => Ok (upd cml w (fst st), upd cml f (snd st)) end) st)
      (for_range_res idx (fun cml st => do r <- classify_link T (within_r d radius) (map2 (map2 n_sub) pmin mx)
        (map2 (fun row l => map (fun x => n_div x l) row) (map2 (map2 n_sub) pmin mx) lens) tP' tPL' ml interval tp cml;
       match r with None => Ok st | Some (w, f) => Ok (upd cml w (fst st), upd cml f (snd st)) end) st')).
  { induction idx as [|i idx IH]; intros st st' F E; cbn [for_range_res].
    - destruct st, st'. split; auto.
    - pose proof (classify_mono T (within_r d radius) (map2 (map2 n_sub) pmin mx)
        (map2 (fun row l => map (fun x => n_div x l) row) (map2 (map2 n_sub) pmin mx) lens) tP tPL tP' tPL' ml interval tp i H1 H2) as C.
      destruct (classify_link T (within_r d radius) (map2 (map2 n_sub) pmin mx) _ tP tPL ml interval tp i) as [[[w f]|]|e],
        (classify_link T (within_r d radius) (map2 (map2 n_sub) pmin mx) _ tP' tPL' ml interval tp i) as [[[w' f']|]|e'];
        cbn [link_rel] in C; try contradiction; cbn [bind].
      + destruct C as [C ->]. apply IH; cbn [fst snd]; [apply Forall2_upd; auto|congruence].
      + apply IH; auto.
      + exact C. }
  apply G; [|reflexivity]. cbn [fst]. apply Forall2_map_same. intros row _. apply Forall2_same. intros x Hx. apply repeat_spec in Hx as ->. left. auto.
Qed.
End Classify.

(** ** blackout gaps *)
Section Gaps.
Context {O : numops} (S : numsem O).
Lemma low_mono (rsl : list O) thr thr' i : n_leb thr thr' = true -> is_low rsl thr i -> is_low rsl thr' i.
Proof. intros H L. unfold is_low in *. apply (ltb_leb_trans S _ _ _ L H). Qed.
Lemma blackout_mono (rsl : list O) thr thr' : n_leb thr thr' = true ->
  (exists m m', created_blackout_gap_mask rsl (fst (get_blackout_start_and_end rsl thr)) (snd (get_blackout_start_and_end rsl thr)) = Ok m /\
    created_blackout_gap_mask rsl (fst (get_blackout_start_and_end rsl thr')) (snd (get_blackout_start_and_end rsl thr')) = Ok m' /\
    forall i, i < length rsl -> get false m i = true -> get false m' i = true) /\
  exists m m', notebook_mask rsl thr = Ok m /\ notebook_mask rsl thr' = Ok m' /\ forall i, i < length rsl -> get false m i = true -> get false m' i = true.
Proof.
  intros H. split.
  - destruct (get_blackout_start_and_end rsl thr) as [gs ge] eqn:E. destruct (get_blackout_start_and_end rsl thr') as [gs' ge'] eqn:E'.
    destruct (mask_markers S rsl thr gs ge E) as (m & Em & _ & M). destruct (mask_markers S rsl thr' gs' ge' E') as (m' & Em' & _ & M').
    exists m, m'. split; [exact Em|]. split; [exact Em'|]. intros i Hi G. apply M' ; auto. apply M in G; auto.
    destruct G as (p & A & B & C). exists p. split; auto. split; auto. apply (low_mono rsl thr); auto.
  - destruct (notebook_mask_spec S rsl thr) as (m & Em & _ & M). destruct (notebook_mask_spec S rsl thr') as (m' & Em' & _ & M').
    exists m, m'. split; [exact Em|]. split; [exact Em'|]. intros i Hi G. apply M' ; auto. apply M in G; auto.
    destruct G as [(p & A & B & C)|(p & A & B & C)]; [left|right]; exists p; (split; [|split]); auto; apply (low_mono rsl thr); auto.
Qed.
End Gaps.

(** ** documented chain, exact arithmetic *)
Lemma fom_add (x y : XR) : finite_or_missing x -> finite_or_missing y -> finite_or_missing (n_add x y).
Proof. intros [->|[r ->]] [->|[s ->]]; try (left; reflexivity). right. exists (r + s)%R. reflexivity. Qed.
Lemma fom_sub (x y : XR) : finite_or_missing x -> finite_or_missing y -> finite_or_missing (n_sub x y).
Proof. intros [->|[r ->]] [->|[s ->]]; try (left; reflexivity). right. exists (r - s)%R. reflexivity. Qed.
Lemma fom_sum (l : list XR) : Forall finite_or_missing l -> finite_or_missing (n_sum l).
Proof.
  unfold n_sum. assert (Z : finite_or_missing (zero : XR)) by (right; exists 0%R; reflexivity). revert Z. generalize (zero : XR).
  induction l as [|x l IH]; intros a Ha F; simpl; auto. inversion F; subst. apply IH; auto. apply fom_add; auto.
Qed.
Lemma fom_mean (l : list XR) : l <> [] -> Forall finite_or_missing l -> finite_or_missing (n_mean l).
Proof.
  intros NE F. unfold n_mean. destruct (fom_sum l F) as [->|[r ->]]; [left; reflexivity|].
  right. exists (r / IZR (Z.of_nat (length l)))%R.
  assert (0 < Z.of_nat (length l))%Z by (destruct l; [contradiction|simpl; lia]).
  apply (KR_proofs.xdiv_fin r (IZR (Z.of_nat (length l)))). apply IZR_lt in H. lra.
Qed.
Lemma fom_nth (l : list XR) i : Forall finite_or_missing l -> finite_or_missing (get n_nan l i).
Proof. intros F. destruct (Nat.lt_ge_cases i (length l)); [|left; unfold get; apply nth_overflow; auto]. rewrite Forall_forall in F. apply F. apply nth_In. auto. Qed.
Lemma Forall_upd' {A} (P : A -> Prop) i x : P x -> forall l, Forall P l -> Forall P (upd i x l).
Proof. intros Hx l H. revert i. induction H; intros [|i]; simpl; auto. Qed.
Lemma sub_slice {A} (P : A -> Prop) s e l : Forall P l -> Forall P (slice s e l).
Proof.
  intros F. unfold slice. rewrite <- (firstn_skipn s l) in F. apply Forall_app in F as [_ F].
  rewrite <- (firstn_skipn (e - s) (skipn s l)) in F. apply Forall_app in F as [F _]. exact F.
Qed.
Lemma baseline_fom (trsl wet bl : list XR) n : Forall finite_or_missing trsl -> baseline_constant trsl wet n = Ok bl -> Forall finite_or_missing bl.
Proof.
  intros F. unfold baseline_constant. destruct (Nat.ltb _ _); [discriminate|]. destruct (Nat.eqb n 0) eqn:E0; [discriminate|]. apply Nat.eqb_neq in E0.
  intros E. injection E as <-. unfold numba_baseline_constant. cbv zeta.
  set (b0 := upd_slice 0 (slice 0 n trsl) (repeat zero (length trsl))).
  assert (L0 : length b0 = length trsl) by (unfold b0; rewrite upd_slice_length, repeat_length; auto).
  assert (F0 : Forall finite_or_missing b0).
  { assert (U : forall vs s (l : list XR), Forall finite_or_missing vs -> Forall finite_or_missing l -> Forall finite_or_missing (upd_slice s vs l)).
    { induction vs as [|v vs IH]; intros s l Fv Fl; simpl; auto. inversion Fv; subst. apply IH; auto. apply Forall_upd'; auto. }
    unfold b0. apply U; [apply sub_slice; auto|]. apply Forall_forall. intros x Hx. apply repeat_spec in Hx as ->. right. exists 0%R. reflexivity. }
  apply (for_range_inv (fun _ b => length b = length trsl /\ Forall finite_or_missing b) n (length trsl - n)); auto.
  intros i b [Hi1 Hi2] [L B].
  assert (G : forall x, finite_or_missing x -> length (upd i x b) = length trsl /\ Forall finite_or_missing (upd i x b)).
  { intros x Hx. split; [rewrite upd_length; auto|apply Forall_upd'; auto]. }
  destruct (_ && negb _); [|destruct (_ && _)]; apply G.
  - apply fom_mean.
    + intros Z. apply (f_equal (@List.length XR)) in Z. unfold slice in Z. rewrite firstn_length, skipn_length in Z. cbn [List.length] in Z. change (num XR) with (num XR) in *. lia.
    + apply sub_slice; auto.
  - apply fom_nth; auto.
  - apply fom_nth; auto.
Qed.

Lemma relaxed_fin (w m dt tau : R) : tau <> 0%R -> relaxed (XFin w : XR) (XFin m : XR) (XFin dt : XR) (XFin tau : XR) = (XFin (w + (m - w) * (3 * dt / tau)) : XR).
Proof.
  intros Ht. unfold relaxed.
  change (n_add (XFin w : XR) (n_div (n_mul (n_mul (n_sub (XFin m : XR) (XFin w : XR)) (n_ofZ 3)) (XFin dt : XR)) (XFin tau : XR)))
    with (xadd (XFin w) (xdiv (XFin ((m - w) * 3 * dt)) (XFin tau)) : XR).
  rewrite KR_proofs.xdiv_fin by auto. apply (f_equal XFin). field. auto.
Qed.
Lemma py_min_fin (a b : R) : py_min (XFin a : XR) (XFin b : XR) = (XFin (Rmin a b) : XR).
Proof.
  unfold py_min. change (n_ltb (XFin b : XR) (XFin a : XR)) with (Rlt_bool b a). unfold Rmin.
  destruct (Rlt_bool_spec b a), (Rle_dec a b); try reflexivity; lra.
Qed.
Lemma py_min_nan (b : XR) : py_min (XNaN : XR) b = (XNaN : XR).
Proof. unfold py_min. destruct b; reflexivity. Qed.
Lemma py_min_nan_r (a : XR) : py_min a (XNaN : XR) = a.
Proof. unfold py_min. destruct a; reflexivity. Qed.

Lemma waa_mono (trsl bl wet : list XR) (m m' dt tau dt' tau' : R) w w' :
  Forall finite_or_missing trsl -> Forall finite_or_missing bl -> (0 <= m <= m')%R -> tau <> 0%R -> tau' <> 0%R ->
  (0 <= 3 * dt / tau <= 3 * dt' / tau')%R -> (3 * dt' / tau' <= 1)%R ->
  (0 < length trsl -> get n_nan w 0 = n_ofZ 0) -> (0 < length trsl -> get n_nan w' 0 = n_ofZ 0) ->
  (forall i, 1 <= i < length trsl -> sch_ok trsl bl wet (XFin m : XR) (XFin dt : XR) (XFin tau : XR) w i) ->
  (forall i, 1 <= i < length trsl -> sch_ok trsl bl wet (XFin m' : XR) (XFin dt' : XR) (XFin tau' : XR) w' i) ->
  forall i, i < length trsl -> not_above (get n_nan w i) (get n_nan w' i) /\ forall r, get n_nan w i = XFin r -> (r <= m)%R.
Proof.
  intros FT FB Hm Ht Ht' Hc Hc1 W0 W0' WS WS'. induction i as [|i IH]; intros Hi.
  - rewrite W0, W0' by lia. split; [right; exists 0%R, 0%R; split; [reflexivity|split; [reflexivity|lra]]|].
    intros r E. injection E as <-. lra.
  - destruct IH as [IH IB]; [lia|]. assert (1 <= Datatypes.S i < length trsl) as H1 by lia.
    specialize (WS _ H1). specialize (WS' _ H1). unfold sch_ok in WS, WS'. cbv zeta in WS, WS'. replace (Datatypes.S i - 1) with i in * by lia.
    rewrite WS, WS'. assert (FA : finite_or_missing (atten trsl bl (Datatypes.S i))) by (unfold atten; apply fom_sub; apply fom_nth; auto).
    destruct FA as [->|[A ->]].
    + rewrite !py_min_nan. destruct (n_eqb _ _); (split; [left; auto|intros r E; discriminate]).
    + rewrite !py_min_fin. assert (M1 : (Rmin A m <= Rmin A m')%R) by (unfold Rmin; destruct (Rle_dec A m), (Rle_dec A m'); lra).
      pose proof (Rmin_r A m) as M2.
      destruct (n_eqb (get n_nan wet (Datatypes.S i)) (n_ofZ 1)).
      * destruct IH as [[E E']|(r & s & E & E' & RS)]; rewrite E, E'.
        -- change (relaxed (XNaN : XR) (XFin m : XR) (XFin dt : XR) (XFin tau : XR)) with (XNaN : XR).
           change (relaxed (XNaN : XR) (XFin m' : XR) (XFin dt' : XR) (XFin tau' : XR)) with (XNaN : XR).
           rewrite !py_min_nan_r. split; [right; eexists _, _; split; [reflexivity|split; [reflexivity|exact M1]]|]. intros v Ev. injection Ev as <-. exact M2.
        -- rewrite !relaxed_fin, !py_min_fin by auto. specialize (IB r E).
           assert (M3 : (r + (m - r) * (3 * dt / tau) <= s + (m' - s) * (3 * dt' / tau'))%R) by nra.
           split; [right; eexists _, _; split; [reflexivity|split; [reflexivity|]]|intros v Ev; injection Ev as <-; eapply Rle_trans; [apply Rmin_l|exact M2]].
           set (x := Rmin A m) in *. set (y := Rmin A m') in *. unfold Rmin. destruct (Rle_dec x _), (Rle_dec y _); lra.
      * split; [right; eexists _, _; split; [reflexivity|split; [reflexivity|exact M1]]|]. intros v Ev. injection Ev as <-. exact M2.
Qed.

Lemma chain_params cubic c (trsl wet : list XR) n (m m' dt tau dt' tau' : R) (k : kr_args XR) :
  plain_coefficients k -> 1 <= n -> length wet = length trsl -> Forall finite_or_missing trsl -> (0 <= m <= m')%R -> tau <> 0%R -> tau' <> 0%R ->
  (0 <= 3 * dt / tau <= 3 * dt' / tau')%R -> (3 * dt' / tau' <= 1)%R ->
  exists bl w w' R R', baseline_constant trsl wet n = Ok bl /\
    waa_schleiss_2013 trsl bl wet (XFin m : XR) (XFin dt : XR) (XFin tau : XR) = Ok w /\
    waa_schleiss_2013 trsl bl wet (XFin m' : XR) (XFin dt' : XR) (XFin tau' : XR) = Ok w' /\
    chain XRm cubic c trsl wet n (XFin m : XR) (XFin dt : XR) (XFin tau : XR) k = Ok R /\
    chain XRm cubic c trsl wet n (XFin m' : XR) (XFin dt' : XR) (XFin tau' : XR) k = Ok R' /\
    length R = length trsl /\ length R' = length trsl /\
    forall i, i < length trsl -> not_above (get n_nan w i) (get n_nan w' i) /\
      (missing (get n_nan R i) <-> missing (get n_nan R' i)) /\ (~ missing (get n_nan R i) -> n_leb (get n_nan R' i) (get n_nan R i) = true).
Proof.
  intros (a & b & E1 & E2 & E3 & E4 & H1 & H2 & Hb & He) Hn Hw FT Hm Ht Ht' Hc Hc1.
  assert (HZ : forall t : R, t <> 0%R -> n_eqb (XFin t : XR) (n_ofZ 0) = true -> forall i, 1 <= i < length trsl -> ~ flag_is_one wet i).
  { intros t T Z. exfalso. apply T. apply (proj1 (xeqb_true (XFin t) (XFin 0))) in Z as [Z _]. injection Z; auto. }
  destruct (chain_run XRsem XRm cubic c trsl wet n (XFin m : XR) (XFin dt : XR) (XFin tau : XR) k a b E1 E2 E3 E4 Hb Hn Hw (HZ tau Ht)) as (bl & w & R & EB & LB & EW & LW & W0 & WS & ER & LR & HR).
  destruct (chain_run XRsem XRm cubic c trsl wet n (XFin m' : XR) (XFin dt' : XR) (XFin tau' : XR) k a b E1 E2 E3 E4 Hb Hn Hw (HZ tau' Ht')) as (bl2 & w' & R' & EB2 & _ & EW' & LW' & W0' & WS' & ER' & LR' & HR').
  rewrite EB in EB2. injection EB2 as <-. exists bl, w, w', R, R'. do 7 (split; [assumption|]).
  pose proof (baseline_fom trsl wet bl n FT EB) as FB. intros i Hi.
  destruct (waa_mono trsl bl wet m m' dt tau dt' tau' w w' FT FB Hm Ht Ht' Hc Hc1 W0 W0' WS WS' i Hi) as [NA _].
  split; [exact NA|]. rewrite HR, HR' by auto.
  assert (FA : finite_or_missing (atten trsl bl i)) by (unfold atten; apply fom_sub; apply fom_nth; auto).
  set (x := n_sub (atten trsl bl i) (get n_nan w i)). set (x' := n_sub (atten trsl bl i) (get n_nan w' i)).
  assert (NX : n_isnan x' = n_isnan x /\ (n_isnan x = false -> n_leb x' x = true)).
  { unfold x, x'. destruct NA as [[-> ->]|(r & s & -> & -> & RS)], FA as [->|[A ->]]; split; try reflexivity; try discriminate.
    intros _. change (Rle_bool (A - s) (A - r) = true). apply Rle_bool_true. lra. }
  destruct NX as [NX LX].
  destruct (rt_range XRsem XRm XRm_pow_sane a b k (cl c x) H1 H2 Hb) as [M1 _].
  destruct (rt_range XRsem XRm XRm_pow_sane a b k (cl c x') H1 H2 Hb) as [M2 _].
  split.
  - rewrite M1, M2. unfold missing. rewrite !(cl_isnan XRsem), NX. reflexivity.
  - intros Hmiss. apply (rate_mono XRsem XRm XRm_pow_sane XRm_pow_mono); auto.
    + apply (inv_nonneg XRsem); auto.
    + apply (cl_mono XRsem). apply LX. destruct (n_isnan x) eqn:E; auto. exfalso. apply Hmiss. apply M1. unfold missing. rewrite (cl_isnan XRsem). auto.
Qed.

(** ** nearby-link rain rates *)
Lemma nearby_params cubic (pref cmin cmax F : list XR) (len a b waa waa' alpha alpha' : R) thr ap :
  length cmin = length pref -> length cmax = length pref -> length F = length pref ->
  (0 < len)%R -> (0 < a)%R -> (0 < b)%R -> (0 <= alpha' <= alpha)%R -> (alpha <= 1)%R -> (waa <= waa')%R ->
  exists rain rain', nearby_rainfall_retrival XRm cubic pref cmin cmax F (XFin len : XR) None None
     (Some (CScalar (XFin a : XR))) (Some (CScalar (XFin b : XR))) ap (XFin waa : XR) (XFin alpha : XR) thr = Ok rain /\
   nearby_rainfall_retrival XRm cubic pref cmin cmax F (XFin len : XR) None None
     (Some (CScalar (XFin a : XR))) (Some (CScalar (XFin b : XR))) ap (XFin waa' : XR) (XFin alpha' : XR) thr = Ok rain' /\
  forall t p x m, t < length pref -> unfiltered F thr t ->
    get n_nan pref t = XFin p -> get n_nan cmin t = XFin x -> get n_nan cmax t = XFin m -> (x <= m)%R ->
    exists r r', get n_nan rain t = XFin r /\ get n_nan rain' t = XFin r' /\ (r' <= r)%R.
Proof.
  intros L2 L3 L4 Hl Ha Hb Hal H1 Hw.
  destruct (retrieval_at cubic pref cmin cmax F len a b waa alpha thr ap L2 L3 L4 Hl Ha Hb) as (rain & E & _ & G).
  destruct (retrieval_at cubic pref cmin cmax F len a b waa' alpha' thr ap L2 L3 L4 Hl Ha Hb) as (rain' & E' & _ & G').
  exists rain, rain'. split; [exact E|]. split; [exact E'|]. intros t p x m Ht U Ep Ex Em XM.
  eexists _, _. split; [apply G; eauto|]. split; [apply G'; eauto|].
  apply Rle_trans with (mixed_rate alpha' a b len p x m waa).
  - apply mixed_rate_mono; auto; lra.
  - unfold mixed_rate.
    assert (R1 : (rain_of a b len (rain_attenuation p m waa) <= rain_of a b len (rain_attenuation p x waa))%R).
    { apply ObsChain_proofs.rain_of_mono; auto; unfold rain_attenuation; [apply Rmax_l|apply Rle_max_compat_l; lra]. }
    nra.
Qed.

Section Filter.
Context {O : numops} (S : numsem O) (L : libm O).
Lemma outlier_threshold cubic (pref cmin cmax F : list O) (len a b waa alpha thr thr' : O) ap :
  length cmin = length pref -> length cmax = length pref -> length F = length pref -> n_eqb b (n_ofZ 0) = false -> n_leb thr thr' = true ->
  exists rain rain', nearby_rainfall_retrival L cubic pref cmin cmax F len None None (Some (CScalar a)) (Some (CScalar b)) ap waa alpha (Some thr) = Ok rain /\
    nearby_rainfall_retrival L cubic pref cmin cmax F len None None (Some (CScalar a)) (Some (CScalar b)) ap waa alpha (Some thr') = Ok rain' /\
    forall t, t < length pref -> get n_nan rain' t = if n_leb (get n_nan F t) thr' then n_nan else get n_nan rain t.
Proof.
  intros L2 L3 L4 Hb HT.
  destruct (retrieval_core L cubic pref cmin cmax F len (CScalar a) (CScalar b) a (n_div one b) waa alpha (Some thr) ap (length pref)) as (R & E & _ & G); auto.
  { apply coef_inv_nonzero; auto. }
  destruct (retrieval_core L cubic pref cmin cmax F len (CScalar a) (CScalar b) a (n_div one b) waa alpha (Some thr') ap (length pref)) as (R' & E' & _ & G'); auto.
  { apply coef_inv_nonzero; auto. }
  exists R, R'. split; [exact E|]. split; [exact E'|]. intros t Ht. rewrite G, G' by auto.
  destruct (n_leb (get n_nan F t) thr') eqn:E2; auto. destruct (n_leb (get n_nan F t) thr) eqn:E1; auto.
  rewrite (leb_trans S _ _ _ E1 HT) in E2. discriminate.
Qed.
End Filter.
