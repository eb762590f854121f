(** Change of units of the inputs of the 1D CNN (exact arithmetic). *)
From Coq Require Import List ZArith Bool String Reals Lra Lia.
From Flocq Require Import Core.Raux.
From Verif Require Import Base Num NumF64 NumList NpOps RealSpec RealStat KR_proofs Stats_proofs3 Stats_proofs4 NearbyWetdry_model NearbyWetdry_proofs
  TfInfer_model TfInfer_spec TfInfer_proofs TfInfer_proofs2 TfInfer_proofs3 TfWrap_model TfAffine_spec.
Import ListNotations.
Local Open Scope nat_scope.
Local Notation length := List.length.

(** ** the samples are all windows *)
Lemma samples_all_windows {O : numops} (ds : dataset O) vars seq_len sel s :
  NoDup (ds_ids ds) -> 1 <= seq_len -> has_vars ds vars -> vars <> [] ->
  create_samples ds (links_of ds sel) vars seq_len = Ok s -> all_windows ds vars seq_len sel (map (fun r => fst (fst r)) s).
Proof.
  intros ND H1 HV NE E. destruct (create_samples_ok ds (links_of ds sel) vars seq_len H1 HV NE) as (s' & Es & HK & Hs).
  rewrite E in Es. injection Es as <-.
  assert (IN : forall x c t, In (x, c, t) s <-> exists j, c = get EmptyString (ds_ids ds) j /\ has_window ds vars seq_len sel j t x).
  { intros x c t. rewrite Hs. unfold has_window. split.
    - intros (Hc & i & Ei & W). exists i. apply first_index_some in Ei. destruct Ei as (I1 & I2 & _). subst c. auto.
    - intros (j & -> & J & Hl & W). split; auto. exists j. split; auto. apply first_index_nodup; auto. }
  set (idx := fun c => match first_index (ds_ids ds) c with Some i => i | None => 0 end).
  assert (HI : forall j, j < length (ds_ids ds) -> idx (get EmptyString (ds_ids ds) j) = j) by (intros j Hj; unfold idx; rewrite first_index_nodup; auto).
  exists (map (fun r => (idx (snd (fst r)), snd r)) s). split; [|split].
  - assert (Q : forall l, (forall r, In r l -> In r s) -> Forall2 (fun jt w => has_window ds vars seq_len sel (fst jt) (snd jt) w) (map (fun r => (idx (snd (fst r)), snd r)) l) (map (fun r => fst (fst r)) l)).
    { induction l as [|[[x c] t] l IH]; intros Hl; [constructor|]. cbn [map fst snd]. constructor; [|apply IH; intros r Hr; apply Hl; right; auto].
      cbn [fst snd]. destruct (proj1 (IN x c t) (Hl _ (or_introl eq_refl))) as (j & -> & W). rewrite HI by apply W. exact W. }
    apply Q; auto.
  - intros j t w W. apply in_map_iff. exists (w, get EmptyString (ds_ids ds) j, t). cbn [fst snd]. rewrite HI by apply W. split; auto. apply IN. eauto.
  - intros NDl. apply (NoDup_map_factor _ (fun jt => (get EmptyString (ds_ids ds) (fst jt), snd jt)) (fun r => (snd (fst r), snd r))); auto.
    intros [[x c] t] Hr. apply IN in Hr. destruct Hr as (j & -> & W). cbn [fst snd]. rewrite HI by apply W. reflexivity.
Qed.

(** ** scaling in R *)
Lemma rmean_affine p q l : l <> [] -> rmean (map (fun x => p * x + q)%R l) = (p * rmean l + q)%R.
Proof.
  intros NE. pose proof (INR_length_pos l NE) as P. unfold rmean. rewrite map_length. rewrite (rsum_map_add (fun x => p * x)%R (fun _ => q)), rsum_map_scal, rsum_map_const.
  rewrite map_id. field. lra.
Qed.
Lemma rvar_affine p q l : l <> [] -> rvar (map (fun x => p * x + q)%R l) = (p * p * rvar l)%R.
Proof.
  intros NE. pose proof (INR_length_pos l NE) as P. rewrite !rvar_def. rewrite map_length, rmean_affine by auto. rewrite map_map.
  rewrite (rsum_map_ext' _ (fun x => p * p * ((x - rmean l) * (x - rmean l)))%R); [|intros; ring]. rewrite rsum_map_scal. field. lra.
Qed.
Lemma rz_affine p q l x : l <> [] -> (0 < p)%R -> ~ nearly_constant l -> ~ nearly_constant (map (fun x => p * x + q)%R l) ->
  rz (map (fun x => p * x + q)%R l) (p * x + q)%R = rz l x.
Proof.
  intros NE Hp N1 N2. destruct (rscale_far _ N1) as [E1 V1], (rscale_far _ N2) as [E2 V2]. unfold rz. rewrite E1, E2, rmean_affine, rvar_affine by auto.
  rewrite sqrt_mult by (try nra; apply rvar_nonneg). rewrite sqrt_square by lra. pose proof (sqrt_lt_R0 _ V1). field. lra.
Qed.

(** ** the changed data set *)
Section Aff.
Variables a b : string -> R.
Definition unit_of (v : string) (x : XR) : XR := n_add (n_mul (XFin (a v) : XR) x) (XFin (b v) : XR).

Lemma unit_of_nan v : unit_of v n_nan = n_nan.
Proof. reflexivity. Qed.
Lemma unit_of_fin v r : unit_of v (XFin r) = XFin (a v * r + b v).
Proof. reflexivity. Qed.
Lemma unit_of_finite v x : (0 < a v)%R -> finite (unit_of v x) = finite x.
Proof.
  intros H. destruct x as [| |r|]; try reflexivity.
  - unfold unit_of, finite. cbn. rewrite Rcompare_Gt by auto. reflexivity.
  - unfold unit_of, finite. cbn. rewrite Rcompare_Gt by auto. reflexivity.
Qed.

Lemma get_unit v (c : list XR) t : nget (map (unit_of v) c) t = unit_of v (nget c t).
Proof.
  unfold nget. destruct (Nat.lt_ge_cases t (length c)) as [H|H].
  - apply get_map; auto.
  - unfold get. rewrite !nth_overflow by (rewrite ?map_length; auto). reflexivity.
Qed.
Lemma get_rows v (m : list (list XR)) i : get [] (map (map (unit_of v)) m) i = map (unit_of v) (get [] m i).
Proof.
  destruct (Nat.lt_ge_cases i (length m)) as [H|H].
  - apply get_map; auto.
  - unfold get. rewrite !nth_overflow by (rewrite ?map_length; auto). reflexivity.
Qed.

Definition row_units (vars : list string) (row : list XR) : list XR := map2 unit_of vars row.

Lemma find_units (ds : dataset XR) v : find (fun p => (fst p =? v)%string) (ds_vars (change_units a b ds))
  = option_map (fun p => (fst p, map (map (unit_of v)) (snd p))) (find (fun p => (fst p =? v)%string) (ds_vars ds)).
Proof.
  unfold change_units. cbn [ds_vars]. induction (ds_vars ds) as [|[k m] l IH]; auto. cbn [map find fst snd]. destruct (String.eqb_spec k v) as [->|]; auto.
Qed.

Lemma link_inputs_units ds cml vars : link_inputs (change_units a b ds) cml vars
  = match link_inputs ds cml vars with Ok (Some rows) => Ok (Some (map (row_units vars) rows)) | r => r end.
Proof.
  unfold link_inputs. change (ds_ids (change_units a b ds)) with (ds_ids ds). change (ds_time (change_units a b ds)) with (ds_time ds).
  destruct (first_index (ds_ids ds) cml) as [i|]; auto.
  set (F := fun d : dataset XR => fold_right (fun v acc => match find (fun p => (fst p =? v)%string) (ds_vars d), acc with
                                     | Some p, Some rows => Some (get [] (snd p) i :: rows)
                                     | _, _ => None
                                     end) (Some [])).
  fold (F ds). fold (F (change_units a b ds)).
  assert (E : forall vars, match F ds vars with Some cols => length cols = length vars | None => True end /\
     F (change_units a b ds) vars = option_map (fun cols => map2 (fun v c => map (unit_of v) c) vars cols) (F ds vars)).
  { clear vars. induction vars as [|v vars [IL IH]]; [split; reflexivity|]. unfold F in *. cbn [fold_right]. rewrite IH, find_units.
    destruct (find _ (ds_vars ds)) as [p|]; cbn [option_map]; [|split; auto].
    destruct (fold_right _ (Some []) vars) as [cols|]; cbn [option_map]; [|split; auto]. split; [cbn; f_equal; auto|].
    cbn [snd map2 map2]. unfold map2. cbn [combine map]. rewrite get_rows. reflexivity. }
  destruct (E vars) as [EL EF]. rewrite EF. destruct (F ds vars) as [cols|]; cbn [option_map]; auto.
  destruct vars as [|v vars]; [destruct cols; [reflexivity|discriminate]|]. destruct cols as [|c cols]; [discriminate|].
  assert (EC : forall t, map (fun c => nget c t) (map2 (fun v c => map (unit_of v) c) (v :: vars) (c :: cols))
                         = row_units (v :: vars) (map (fun c => nget c t) (c :: cols))).
  { intros t. generalize (v :: vars) (c :: cols). induction l as [|w l IH]; intros [|d k]; try reflexivity.
    unfold row_units, map2 in *. cbn [combine map]. rewrite get_unit. f_equal. apply IH. }
  unfold map2 at 1. cbn [combine map]. f_equal. f_equal. rewrite map_map. apply map_ext. intros t. exact (EC t).
Qed.

Lemma row_units_finite vars row : (forall v, In v vars -> 0 < a v)%R -> length row = length vars -> forallb finite (row_units vars row) = forallb finite row.
Proof.
  revert row. induction vars as [|v vars IH]; intros [|x row] H L; try discriminate; auto. unfold row_units, map2 in *. cbn [combine map forallb fst snd].
  rewrite IH; auto. 2: intros w Hw; apply H; right; auto. f_equal. apply unit_of_finite. apply H. left; auto.
Qed.

Lemma slice_map {A B} (f : A -> B) i j l : slice i j (map f l) = map f (slice i j l).
Proof. unfold slice. rewrite skipn_map, firstn_map. reflexivity. Qed.

Lemma in_slice {A} (x : A) i j l : In x (slice i j l) -> In x l.
Proof. unfold slice. intros H. rewrite <- (firstn_skipn i l). apply in_or_app. right.
  rewrite <- (firstn_skipn (j - i) (skipn i l)). apply in_or_app. left. exact H. Qed.

(** ** samples *)
Lemma link_samples_units (vars : list string) seq_len cml (rows : list (list XR)) :
  (forall v, In v vars -> 0 < a v)%R -> (forall r, In r rows -> length r = length vars) ->
  link_samples seq_len cml (map (row_units vars) rows)
  = map (fun r => (map (row_units vars) (fst (fst r)), snd (fst r), snd r)) (link_samples seq_len cml rows).
Proof.
  intros Ha HL. unfold link_samples. rewrite map_length. destruct (_ <? _); auto.
  induction (seq _ _) as [|t l IH]; auto. cbn [flat_map]. rewrite map_app, IH. f_equal. cbv zeta. rewrite slice_map.
  assert (EF : forallb (forallb finite) (map (row_units vars) (slice (t + 1 - seq_len) (t + 1) rows)) = forallb (forallb finite) (slice (t + 1 - seq_len) (t + 1) rows)).
  { assert (HS : forall r, In r (slice (t + 1 - seq_len) (t + 1) rows) -> length r = length vars) by (intros r Hr; apply HL; eapply in_slice; eauto).
    clear - Ha HS. induction (slice _ _ _) as [|r k IH]; auto. cbn [map forallb]. rewrite row_units_finite; auto; [|apply HS; left; auto].
    f_equal. apply IH. intros q Hq. apply HS. right; auto. }
  rewrite EF. destruct (forallb (forallb finite) (slice (t + 1 - seq_len) (t + 1) rows)); reflexivity.
Qed.

Lemma link_inputs_rows (ds : dataset XR) cml vars rows : link_inputs ds cml vars = Ok (Some rows) -> forall r, In r rows -> length r = length vars.
Proof.
  unfold link_inputs. destruct (first_index (ds_ids ds) cml) as [i|]; [|discriminate].
  set (F := fold_right (fun v acc => match find (fun p => (fst p =? v)%string) (ds_vars ds), acc with
                                     | Some p, Some rows => Some (get [] (snd p) i :: rows)
                                     | _, _ => None
                                     end) (Some [])).
  assert (E : forall vars cols, F vars = Some cols -> length cols = length vars).
  { clear vars. induction vars as [|v vars IH]; intros cols H; unfold F in *; cbn [fold_right] in H; [injection H as <-; auto|].
    destruct (find _ _); [|discriminate]. destruct (fold_right _ (Some []) vars) eqn:Q; [|discriminate]. injection H as <-. cbn. f_equal. apply IH; auto. }
  specialize (E vars). fold (F vars). destruct (F vars) as [[|c cols]|]; try discriminate. specialize (E _ eq_refl). set (cs := c :: cols) in *. clearbody cs.
  intros H r Hr. injection H as <-. apply in_map_iff in Hr as (t & <- & _). rewrite map_length. auto.
Qed.

Lemma create_samples_units ds ids vars seq_len : (forall v, In v vars -> 0 < a v)%R ->
  create_samples (change_units a b ds) ids vars seq_len
  = match create_samples ds ids vars seq_len with Ok s => Ok (map (fun r => (map (row_units vars) (fst (fst r)), snd (fst r), snd r)) s) | Err e => Err e end.
Proof.
  intros Ha. unfold create_samples. destruct (seq_len =? 0); auto.
  set (f' := fun cml => do inp <- link_inputs (change_units a b ds) cml vars; Ok (match inp with None => [] | Some inputs => link_samples seq_len cml inputs end)).
  set (f := fun cml => do inp <- link_inputs ds cml vars; Ok (match inp with None => [] | Some inputs => link_samples seq_len cml inputs end)).
  set (g := fun r : list (list XR) * string * nat => (map (row_units vars) (fst (fst r)), snd (fst r), snd r)).
  assert (Hf : forall c, f' c = match f c with Ok l => Ok (map g l) | Err e => Err e end).
  { intros c. unfold f', f. rewrite link_inputs_units. destruct (link_inputs ds c vars) as [[rows|]|e] eqn:EL; cbn [bind]; auto.
    f_equal. apply link_samples_units; auto. eapply link_inputs_rows; eauto. }
  clearbody f f' g.
  assert (HM : mapM f' ids = match mapM f ids with Ok ls => Ok (map (map g) ls) | Err e => Err e end).
  { induction ids as [|c ids IH]; auto. cbn [mapM]. rewrite Hf. destruct (f c); cbn [bind]; auto. rewrite IH. destruct (mapM f ids); reflexivity. }
  rewrite HM. destruct (mapM f ids) as [ls|]; cbn [bind]; auto. rewrite concat_map. reflexivity.
Qed.

(** ** finite samples are real *)
Lemma sample_real (x : list (list XR)) : forallb (forallb finite) x = true -> exists w, x = map ofR w.
Proof.
  induction x as [|r x IH]; [exists []; auto|]. cbn [forallb]. rewrite andb_true_iff. intros [H1 H2]. destruct (IH H2) as (w & ->).
  destruct (finite_ofR r) as (q & ->); [|exists (q :: w); auto]. intros v Hv. rewrite forallb_forall in H1. apply H1 in Hv. unfold finite in Hv.
  apply andb_true_iff in Hv as [A B]. apply negb_true_iff in A, B. auto.
Qed.

Lemma samples_real (ds : dataset XR) ids vars seq_len s : 1 <= seq_len -> create_samples ds ids vars seq_len = Ok s ->
  exists X, map (fun r => fst (fst r)) s = ofR3 X /\ rectangular (length vars) X /\ forall w, In w X -> length w = seq_len.
Proof.
  intros H1. unfold create_samples. destruct (Nat.eqb_spec seq_len 0); [lia|].
  revert s. induction ids as [|c ids IH]; intros s E.
  - injection E as <-. exists []. split; auto. split; [intros ? ? []|intros ? []].
  - cbn [mapM] in E. destruct (link_inputs ds c vars) as [inp|] eqn:EL; [|discriminate]. cbn [bind] in E.
    destruct (mapM _ ids) as [ls|]; [|discriminate]. cbn [bind] in *. injection E as <-. destruct (IH _ eq_refl) as (X & EX & RX & NX).
    cbn [List.concat]. rewrite map_app, EX.
    assert (Q : exists Y, map (fun r => fst (fst r)) (match inp with Some inputs => link_samples seq_len c inputs | None => [] end) = ofR3 Y /\ rectangular (length vars) Y
      /\ forall w, In w Y -> length w = seq_len).
    { destruct inp as [rows|]; [|exists []; split; auto; split; [intros ? ? []|intros ? []]]. pose proof (link_inputs_rows _ _ _ _ EL) as HL.
      assert (HS : forall x, In x (map (fun r => fst (fst r)) (link_samples seq_len c rows)) -> forallb (forallb finite) x = true /\ length x = seq_len /\ forall r, In r x -> length r = length vars).
      { intros x Hx. apply in_map_iff in Hx as ([[x' c'] t] & <- & Hx). apply link_samples_In in Hx; auto. destruct Hx as (_ & A & B & -> & F). cbn [fst]. split; auto. split.
        - rewrite slice_length; lia.
        - intros r Hr. apply HL. eapply in_slice; eauto. }
      induction (map (fun r : sample * string * nat => fst (fst r)) (link_samples seq_len c rows)) as [|x l IHl]; [exists []; split; auto; split; [intros ? ? []|intros ? []]|].
      destruct IHl as (Y & -> & RY & LY); [intros; apply HS; right; auto|]. destruct (HS x (or_introl eq_refl)) as (F & L & R1). destruct (sample_real x F) as (w & ->).
      exists (w :: Y). split; auto. split.
      - intros v row [<-|Hv] Hrow; [|eapply RY; eauto]. rewrite <- (R1 (ofR row)); [rewrite ofR_length; auto|]. apply in_map; auto.
      - intros v [<-|Hv]; auto. rewrite map_length in L. exact L. }
    destruct Q as (Y & EY & RY & LY). exists (Y ++ X). split; [unfold ofR3 in *; rewrite map_app; apply f_equal2; auto|]. split.
    { intros w row Hw. apply in_app_or in Hw as [Hw|Hw]; [eapply RY|eapply RX]; eauto. }
    intros w Hw. apply in_app_or in Hw as [Hw|Hw]; [apply LY|apply NX]; auto.
Qed.

Lemma cnn_units net (ds : dataset XR) vars seq_len sel :
  NoDup (ds_ids ds) -> 1 <= seq_len -> has_vars ds vars -> vars <> [] -> (forall v, In v vars -> 0 < a v)%R ->
  (forall X, all_windows ds vars seq_len sel (ofR3 X) -> forall k, k < length vars ->
     let v := get EmptyString vars k in
     ~ nearly_constant (featR k X) /\ ~ nearly_constant (map (fun x => a v * x + b v)%R (featR k X))) ->
  wet_dry_1d_cnn net (change_units a b ds) vars seq_len sel = wet_dry_1d_cnn net ds vars seq_len sel.
Proof.
  intros ND H1 HV NE Ha HC. unfold wet_dry_1d_cnn. change (ds_ids (change_units a b ds)) with (ds_ids ds).
  fold (links_of ds sel). rewrite create_samples_units by auto.
  destruct (create_samples ds (links_of ds sel) vars seq_len) as [s|e] eqn:Es; cbn [bind]; auto.
  erewrite (map_length _ s). destruct (Nat.eqb_spec (length s) 0) as [|Hs]; [reflexivity|].
  pose proof (samples_all_windows ds vars seq_len sel s ND H1 HV NE Es) as AW.
  destruct (samples_real ds _ vars seq_len s H1 Es) as (X & EX & RX & LX). rewrite EX in *. rewrite !map_map. cbn [fst snd].
  set (U := map (map (fun row => map2 (fun v x => a v * x + b v)%R vars row)) X).
  assert (EU : map (fun r : list (list XR) * string * nat => map (row_units vars) (fst (fst r))) s = ofR3 U).
  { transitivity (map (map (row_units vars)) (map (fun r : sample * string * nat => fst (fst r)) s)); [rewrite map_map; reflexivity|]. rewrite EX. unfold U, ofR3. rewrite !map_map.
    apply map_ext. intros w. rewrite !map_map. apply map_ext. intros row. unfold row_units, ofR, map2.
    clear. revert row. induction vars as [|v vs IH]; intros [|x row]; cbn [combine map]; auto. f_equal. apply IH. }
  assert (RU : rectangular (length vars) U).
  { intros w row Hw Hr. unfold U in Hw. apply in_map_iff in Hw as (w0 & <- & Hw). apply in_map_iff in Hr as (r0 & <- & Hr).
    rewrite map2_length; auto. symmetry. eapply RX; eauto. }
  assert (NX : exists w row, In w X /\ In row w).
  { destruct X as [|w X]; [destruct s; [exfalso; apply Hs; reflexivity|discriminate]|]. destruct w as [|row w]; [specialize (LX _ (or_introl eq_refl)); cbn in LX; lia|].
    exists (row :: w), row. split; left; auto. }
  destruct NX as (w0 & row0 & N1 & N2).
  assert (FU : forall k, k < length vars -> featR k U = map (fun x => a (get EmptyString vars k) * x + b (get EmptyString vars k))%R (featR k X)).
  { intros k Hk. unfold featR, U. rewrite concat_map, !map_map. f_equal. apply map_ext_in. intros w Hw. rewrite !map_map. apply map_ext_in. intros row Hr.
    pose proof (RX w row Hw Hr) as L. unfold rget at 1. rewrite (get_map2 _ EmptyString 0%R) by lia. reflexivity. }
  match goal with |- bind (scale_features ?A _ _) _ = _ => replace A with (ofR3 U) by (symmetry; exact EU) end.
  rewrite scale_features_XR, (scale_features_XR _ X) by auto. cbn [bind].
  assert (rscaled (length vars) U = rscaled (length vars) X) as ->.
  { unfold rscaled. unfold U at 2. rewrite map_map. apply map_ext_in. intros w Hw. rewrite map_map. apply map_ext_in. intros row Hr.
    apply map_ext_in. intros k Hk. apply in_seq in Hk. destruct (HC X AW k ltac:(lia)) as [C1 C2]. rewrite FU by lia.
    pose proof (RX w row Hw Hr) as L. unfold rget at 1. rewrite (get_map2 _ EmptyString 0%R) by lia. fold (rget row k).
    apply rz_affine; auto. eapply featR_nonempty; eauto. apply Ha. apply get_In. lia. }
  reflexivity.
Qed.
End Aff.

(** ** a concrete data set meets the conditions *)
Definition two_values : dataset XR := {| ds_ids := ["a"]%string; ds_time := 2; ds_vars := [("TL"%string, [[XFin 0; XFin 1] : list XR])] |}.

Lemma two_windows t w : window two_values ["TL"%string] 1 0 t w -> (t = 0 /\ w = [[XFin 0 : num XR]]) \/ (t = 1 /\ w = [[XFin 1 : num XR]]).
Proof.
  intros (Ht & _ & L & H). destruct w as [|row [|]]; try discriminate. destruct (H 0 ltac:(lia)) as [Lr H2].
  change (get [] [row] 0) with row in *. destruct row as [|x [|]]; try discriminate.
  destruct (H2 0 ltac:(cbn; lia)) as [(k & Hk & _ & _ & E) _]. cbn in Hk. assert (k = 0) by lia. subst k. change (nget [x] 0) with x in E.
  cbn [ds_time two_values] in Ht. assert (T : t = 0 \/ t = 1) by lia. destruct T; subst t; [left|right]; split; auto; rewrite E; reflexivity.
Qed.
Lemma two_has_window j t w : has_window two_values ["TL"%string] 1 None j t w ->
  (j = 0 /\ t = 0 /\ w = [[XFin 0 : num XR]]) \/ (j = 0 /\ t = 1 /\ w = [[XFin 1 : num XR]]).
Proof.
  intros (Hj & _ & W). cbn in Hj. assert (j = 0) by lia. subst j. apply two_windows in W. tauto.
Qed.
Lemma two_window_ex t : t < 2 -> exists w, has_window two_values ["TL"%string] 1 None 0 t w.
Proof.
  intros Ht. exists [[match t with 0 => XFin 0 | _ => XFin 1 end : num XR]]. split; [cbn; lia|]. split; [left; reflexivity|].
  split; [cbn; lia|]. split; [lia|]. split; auto. intros s Hs. assert (s = 0) by lia. subst s. split; auto. intros k Hk. cbn in Hk. assert (k = 0) by lia. subst k.
  split.
  - exists 0. cbn. split; [lia|]. split; auto. split; [intros; lia|]. destruct t as [|[|]]; try lia; reflexivity.
  - destruct t; split; reflexivity.
Qed.
Lemma two_features X : all_windows two_values ["TL"%string] 1 None (ofR3 X) -> featR 0 X = [0; 1]%R \/ featR 0 X = [1; 0]%R.
Proof.
  intros (K & F & C & N). specialize (N ltac:(cbn; repeat constructor; intros [])).
  assert (I0 : In (0, 0) K) by (destruct (two_window_ex 0 ltac:(lia)) as (w & W); eapply C; eauto).
  assert (I1 : In (0, 1) K) by (destruct (two_window_ex 1 ltac:(lia)) as (w & W); eapply C; eauto).
  assert (IO : forall q, In q K -> q = (0, 0) \/ q = (0, 1)).
  { intros q Hq. apply (In_get (0, 0)) in Hq as (i & Hi & <-).
    assert (G : forall (K : list (nat * nat)) (Y : list (list (list XR))), Forall2 (fun jt w => has_window two_values ["TL"%string] 1 None (fst jt) (snd jt) w) K Y ->
       forall i, i < length K -> exists w, has_window two_values ["TL"%string] 1 None (fst (get (0, 0) K i)) (snd (get (0, 0) K i)) w).
    { clear. induction 1; intros i Hi; [cbn in Hi; lia|]. destruct i; [eexists; eauto|]. apply (IHForall2 i). cbn in Hi. lia. }
    destruct (G _ _ F i Hi) as (w & W). destruct (get (0, 0) K i) as [j t]. apply two_has_window in W. cbn in W. destruct W as [(-> & -> & _)|(-> & -> & _)]; auto. }
  destruct K as [|p [|q [|r K]]].
  - destruct I0.
  - destruct I0 as [E0|[]], I1 as [E1|[]]. congruence.
  - assert (D : p <> q) by (inversion N; subst; intros ->; apply H1; left; auto).
    assert (XX : forall w v, Forall2 (fun jt w => has_window two_values ["TL"%string] 1 None (fst jt) (snd jt) w) [p; q] [map ofR w; map ofR v] ->
        featR 0 [w; v] = [0; 1]%R \/ featR 0 [w; v] = [1; 0]%R).
    { clear F. intros w v F. inversion F as [|? ? ? ? Wp F1]; subst. inversion F1 as [|? ? ? ? Wq _]; subst. apply two_has_window in Wp, Wq.
      assert (V : forall w r, map ofR w = [[XFin r : num XR]] -> w = [[r]]).
      { clear. intros w r E. destruct w as [|row [|]]; try discriminate. cbn in E. injection E as E. destruct row as [|x [|]]; try discriminate. cbn in E. injection E as ->. reflexivity. }
      destruct p as [pj pt], q as [qj qt]. cbn [fst snd] in *.
      destruct Wp as [(-> & -> & Ew)|(-> & -> & Ew)], Wq as [(-> & -> & Ev)|(-> & -> & Ev)]; try congruence;
      apply V in Ew, Ev; subst; [left|right]; reflexivity. }
    assert (LF : 2 = length (ofR3 X)) by (change 2 with (length [p; q]); clear - F; induction F; cbn; auto). unfold ofR3 in LF. rewrite map_length in LF.
    destruct X as [|w [|v [|]]]; try discriminate. apply XX. exact F.
  - exfalso. inversion N as [|? ? N1 N2]; subst. inversion N2 as [|? ? N3 N4]; subst.
    destruct (IO p (or_introl eq_refl)) as [Ep|Ep], (IO q (or_intror (or_introl eq_refl))) as [Eq|Eq], (IO r (or_intror (or_intror (or_introl eq_refl)))) as [Er|Er]; subst;
    try (apply N1; left; reflexivity); try (apply N1; right; left; reflexivity); try (apply N3; left; reflexivity).
Qed.
Lemma two_values_vary : forall X, all_windows two_values ["TL"%string] 1 None (ofR3 X) -> forall k, k < 1 ->
  ~ nearly_constant (featR k X) /\ ~ nearly_constant (map (fun x => 2 * x + 3)%R (featR k X)).
Proof.
  intros X H k Hk. assert (k = 0) by lia. subst k.
  assert (E : (0 < / 2 ^ 52 <= / 1000)%R).
  { split; [apply Rinv_0_lt_compat; apply pow_lt; lra|]. apply Rinv_le_contravar; [lra|]. rewrite pow_IZR. apply IZR_le. vm_compute. discriminate. }
  set (e := (/ 2 ^ 52)%R) in *. assert (E2 : (e * e <= e * / 1000)%R) by nra.
  destruct (two_features X H) as [-> | ->]; unfold nearly_constant, rvar, rmean; cbn [map rsum fold_right length INR]; fold e; split; intros N; cbv zeta in N; nra.
Qed.

(** ** the scaling couples links and times *)
Definition one_link (l : list F64) : dataset F64 := {| ds_ids := ["a"]%string; ds_time := length l; ds_vars := [("TL"%string, [l])] |}.
Definition two_links (l k : list F64) : dataset F64 := {| ds_ids := ["a"; "b"]%string; ds_time := length l; ds_vars := [("TL"%string, [l; k])] |}.

Lemma coupled_links : exists net (l k k' : list F64) m m', length k = length l /\ length k' = length l /\
  wet_dry_1d_cnn net (two_links l k) ["TL"%string] 1 None = Ok m /\ wet_dry_1d_cnn net (two_links l k') ["TL"%string] 1 None = Ok m' /\
  n_ltb (nget (get [] m 0) 0) (nget (get [] m' 0) 0) = true.
Proof.
  exists (fun w => n_sum (List.concat w)), [#1; #1; #5], [fNaN; #5; fNaN], [fNaN; fNaN; fNaN].
  match goal with |- exists m m', _ /\ _ /\ ?r = _ /\ ?r' = _ /\ _ =>
    assert (H : match r, r' with Ok m, Ok m' => n_ltb (nget (get [] m 0) 0) (nget (get [] m' 0) 0) | _, _ => false end = true) by (vm_compute; reflexivity);
    destruct r as [m0|]; [|discriminate]; destruct r' as [m1|]; [|discriminate]; exists m0, m1; auto 6 end.
Qed.
Lemma coupled_times : exists net (l l' : list F64) t m m', firstn (t + 1) l = firstn (t + 1) l' /\ length l = length l' /\
  wet_dry_1d_cnn net (one_link l) ["TL"%string] 1 None = Ok m /\ wet_dry_1d_cnn net (one_link l') ["TL"%string] 1 None = Ok m' /\
  n_ltb (nget (get [] m t) 0) (nget (get [] m' t) 0) = true.
Proof.
  exists (fun w => n_sum (List.concat w)), [#1; #5; #5], [#1; #5; fNaN], 1.
  match goal with |- exists m m', _ /\ _ /\ ?r = _ /\ ?r' = _ /\ _ =>
    assert (H : match r, r' with Ok m, Ok m' => n_ltb (nget (get [] m 1) 0) (nget (get [] m' 1) 0) | _, _ => false end = true) by (vm_compute; reflexivity);
    destruct r as [m0|]; [|discriminate]; destruct r' as [m1|]; [|discriminate]; exists m0, m1; auto 6 end.
Qed.
