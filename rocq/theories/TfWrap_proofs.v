(** Proofs about the outer part of the 1D CNN. *)
From Coq Require Import List ZArith Bool String Lia Arith.
From Verif Require Import Base Num NumF64 NumList NpOps NearbyWetdry_model NearbyWetdry_proofs TfInfer_model TfInfer_spec TfInfer_proofs TfInfer_proofs2
  TfWrap_model TfWrap_spec.
Import ListNotations.
Local Open Scope nat_scope.
Local Notation length := List.length.

Section P.
Context {O : numops} (S : numsem O).

Lemma mapM_const_nil {A B} (f : A -> res (list B)) l : (forall x, f x = Ok []) -> exists ls, mapM f l = Ok ls /\ List.concat ls = [].
Proof.
  intros H. induction l as [|x l (ls & E & C)]; [exists []; auto|]. exists ([] :: ls). cbn [mapM]. rewrite H. cbn [bind]. rewrite E. cbn [bind]. auto.
Qed.

Lemma no_links net (ds : dataset O) vars seq_len sel : ds_ids ds = [] -> 1 <= seq_len ->
  wet_dry_1d_cnn net ds vars seq_len (Some sel) = Err IndexError.
Proof.
  intros E H. unfold wet_dry_1d_cnn, create_samples. destruct (Nat.eqb_spec seq_len 0); [lia|].
  destruct (mapM_const_nil (fun cml => do inp <- link_inputs ds cml vars; Ok (match inp with None => [] | Some inputs => link_samples seq_len cml inputs end)) sel)
    as (ls & EL & C).
  { intros c. unfold link_inputs. rewrite E. reflexivity. }
  rewrite EL. cbn [bind]. rewrite C. reflexivity.
Qed.

Lemma other_dimension_name tf net (ds : full_ds O) id_coord vars seq_len cml_ids :
  tf = Ok tt -> f_dim ds <> "cml_id"%string -> has_name ds id_coord = true -> 1 <= seq_len ->
  cml_ids <> None \/ id_coord = f_dim ds ->
  predict tf (Ok net) ds id_coord vars seq_len cml_ids = Err IndexError.
Proof.
  intros -> HD HN H1 HC. unfold predict. cbn [bind]. rewrite HN. cbn [negb].
  assert (V : sel_view ds = {| ds_ids := []; ds_time := ds_time (f_data ds); ds_vars := ds_vars (f_data ds) |}).
  { unfold sel_view. destruct (String.eqb_spec (f_dim ds) "cml_id"); [contradiction|reflexivity]. }
  destruct cml_ids as [l|].
  - cbn [bind]. rewrite V. apply no_links; auto.
  - destruct HC as [HC|HC]; [congruence|]. subst id_coord. unfold link_values. rewrite String.eqb_refl. cbn [bind]. rewrite V. apply no_links; auto.
Qed.

Lemma unknown_coord tf load (ds : full_ds O) id_coord vars seq_len cml_ids :
  tf = Ok tt -> has_name ds id_coord = false -> predict tf load ds id_coord vars seq_len cml_ids = Err KeyError.
Proof. intros -> H. unfold predict. rewrite H. reflexivity. Qed.

Lemma named_cml_id net (ds : full_ds O) vars seq_len cml_ids :
  f_dim ds = "cml_id"%string ->
  predict (Ok tt) (Ok net) ds "cml_id" vars seq_len cml_ids = wet_dry_1d_cnn net (f_data ds) vars seq_len cml_ids.
Proof.
  intros H. unfold predict, has_name, link_values, sel_view. rewrite H. cbn. destruct cml_ids; reflexivity.
Qed.

(** ** merging *)
Lemma by_link_shape (ds : dataset O) m : well_shaped ds (by_link ds m).
Proof.
  split; [unfold by_link; rewrite map_length, seq_length; auto|]. intros r Hr. apply in_map_iff in Hr as (j & <- & _).
  rewrite map_length, seq_length. auto.
Qed.
Lemma by_link_at (ds : dataset O) m j t : j < length (ds_ids ds) -> t < ds_time ds -> at_link (by_link ds m) j t = nget (get [] m t) j.
Proof.
  intros. unfold at_link, by_link. rewrite get_map_seq by auto. unfold nget at 1. rewrite get_map_seq by auto. reflexivity.
Qed.

Lemma find_map_other {A} (l : list (string * A)) name v x : x <> name ->
  find (fun p => (fst p =? x)%string) (map (fun q => if (fst q =? name)%string then (name, v) else q) l)
  = find (fun p => (fst p =? x)%string) l.
Proof.
  intros N. induction l as [|[k a] l IH]; auto. cbn [map find fst]. destruct (String.eqb_spec k name) as [->|NK].
  - cbn [fst]. destruct (String.eqb_spec name x); [congruence|]. apply IH.
  - cbn [fst]. destruct (k =? x)%string; auto.
Qed.
Lemma find_map_same {A} (l : list (string * A)) name v p : find (fun p => (fst p =? name)%string) l = Some p ->
  find (fun p => (fst p =? name)%string) (map (fun q => if (fst q =? name)%string then (name, v) else q) l) = Some (name, v).
Proof.
  induction l as [|[k a] l IH]; [discriminate|]. cbn [map find fst]. destruct (String.eqb_spec k name) as [->|NK].
  - intros _. cbn [fst]. rewrite String.eqb_refl. reflexivity.
  - cbn [fst]. destruct (String.eqb_spec k name); [contradiction|]. auto.
Qed.
Lemma find_app {A} (l k : list (string * A)) x : find (fun p => (fst p =? x)%string) (l ++ k) =
  match find (fun p => (fst p =? x)%string) l with Some p => Some p | None => find (fun p => (fst p =? x)%string) k end.
Proof. induction l as [|[a b] l IH]; auto. cbn [app find fst]. destruct (a =? x)%string; auto. Qed.

Lemma merge_new (ds : dataset O) name m : variable ds name = None ->
  exists ds', merge_prediction ds name m = Ok ds' /\ ds_ids ds' = ds_ids ds /\ ds_time ds' = ds_time ds /\
  variable ds' name = Some (by_link ds m) /\ forall v, v <> name -> variable ds' v = variable ds v.
Proof.
  unfold variable, merge_prediction. destruct (find _ (ds_vars ds)) eqn:F; [discriminate|]. intros _.
  eexists. split; [reflexivity|]. cbn [ds_ids ds_time ds_vars]. split; auto. split; auto. split.
  - rewrite find_app, F. cbn. rewrite String.eqb_refl. reflexivity.
  - intros v N. rewrite find_app. destruct (find (fun p => (fst p =? v)%string) (ds_vars ds)); auto. cbn. destruct (String.eqb_spec name v); [congruence|reflexivity].
Qed.

Lemma forallb_rows (old new : list (list O)) rows cols (P : O -> O -> bool) :
  length old = rows -> length new = rows -> (forall r, In r old -> length r = cols) -> (forall r, In r new -> length r = cols) ->
  (forallb (fun r => forallb (fun e => P (fst e) (snd e)) (combine (fst r) (snd r))) (combine old new) = true <->
   forall j t, j < rows -> t < cols -> P (at_link old j t) (at_link new j t) = true).
Proof.
  revert old new. induction rows as [|rows IH]; intros old new Lo Ln Ro Rn.
  - destruct old, new; try discriminate. split; auto. intros _ j t Hj. lia.
  - destruct old as [|ro old], new as [|rn new]; try discriminate. cbn [combine forallb fst snd].
    injection Lo as Lo. injection Ln as Ln.
    rewrite andb_true_iff. rewrite (IH old new Lo Ln); [|intros; apply Ro; right; auto|intros; apply Rn; right; auto].
    assert (Cr : length ro = cols) by (apply Ro; left; auto). assert (Cn : length rn = cols) by (apply Rn; left; auto).
    assert (ROW : forallb (fun e => P (fst e) (snd e)) (combine ro rn) = true <-> forall t, t < cols -> P (nget ro t) (nget rn t) = true).
    { clear - Cr Cn. revert cols rn Cr Cn. induction ro as [|a ro IH]; intros cols rn Cr Cn.
      - destruct rn; [|simpl in *; lia]. simpl in *. split; auto. intros; lia.
      - destruct rn as [|b rn]; [simpl in *; lia|]. cbn [combine forallb fst snd]. rewrite andb_true_iff.
        destruct cols as [|cols]; [simpl in Cr; lia|]. injection Cr as Cr. injection Cn as Cn. rewrite (IH cols rn Cr Cn). split.
        + intros [A B] [|t] Ht; [exact A|]. apply B. lia.
        + intros H. split; [apply (H 0); lia|]. intros t Ht. apply (H (Datatypes.S t)). lia. }
    rewrite ROW. split.
    + intros [A B] [|j] t Hj Ht; [apply A; auto|]. apply B; auto; lia.
    + intros H. split; [intros t Ht; apply (H 0 t); auto; lia|]. intros j t Hj Ht. apply (H (Datatypes.S j) t); auto; lia.
Qed.

Lemma merge_existing (ds : dataset O) name m old : variable ds name = Some old -> well_shaped ds old ->
  ((exists j t, j < length (ds_ids ds) /\ t < ds_time ds /\
      n_isnan (at_link old j t) = false /\ n_isnan (nget (get [] m t) j) = false /\ n_eqb (at_link old j t) (nget (get [] m t) j) = false) ->
   merge_prediction ds name m = Err ValueError) /\
  ((forall j t, j < length (ds_ids ds) -> t < ds_time ds ->
      n_isnan (at_link old j t) = true \/ n_isnan (nget (get [] m t) j) = true \/ n_eqb (at_link old j t) (nget (get [] m t) j) = true) ->
   exists ds' v, merge_prediction ds name m = Ok ds' /\ ds_ids ds' = ds_ids ds /\ ds_time ds' = ds_time ds /\
     variable ds' name = Some v /\ well_shaped ds v /\
     (forall j t, j < length (ds_ids ds) -> t < ds_time ds ->
        at_link v j t = if n_isnan (at_link old j t) then nget (get [] m t) j else at_link old j t) /\
     forall x, x <> name -> variable ds' x = variable ds x).
Proof.
  intros V [Lo Ro]. unfold variable in V. destruct (find (fun p => (fst p =? name)%string) (ds_vars ds)) as [p|] eqn:F; [|discriminate].
  injection V as V. destruct (by_link_shape ds m) as [Ln Rn].
  pose proof (forallb_rows old (by_link ds m) _ _ compatible Lo Ln Ro Rn) as FB. unfold merge_prediction. rewrite F, V. cbv zeta. split.
  - intros (j & t & Hj & Ht & A & B & C).
    destruct (merge_var old (by_link ds m)) as [v|e] eqn:MV.
    + unfold merge_var in MV. destruct (forallb _ _) eqn:FE; [|discriminate].
      pose proof (proj1 FB eq_refl j t Hj Ht) as K. rewrite by_link_at in K by auto. unfold compatible in K. rewrite A, B, C in K. discriminate.
    + unfold merge_var in MV. destruct (forallb _ _); [discriminate|]. injection MV as <-. reflexivity.
  - intros H. unfold merge_var.
    assert (forallb (fun r => forallb (fun e => compatible (fst e) (snd e)) (combine (fst r) (snd r))) (combine old (by_link ds m)) = true) as ->.
    { apply FB. intros j t Hj Ht. rewrite by_link_at by auto. unfold compatible. destruct (H j t Hj Ht) as [E1|[E1|E1]]; rewrite E1, ?orb_true_r; auto. }
    cbn [bind]. eexists. eexists. split; [reflexivity|]. cbn [ds_ids ds_time]. split; auto. split; auto.
    unfold variable. cbn [ds_vars]. rewrite (find_map_same _ _ _ _ F). cbn [option_map snd].
    assert (LL : length old = length (by_link ds m)) by (rewrite Lo, Ln; auto).
    split; [reflexivity|]. split; [|split].
    + split; [rewrite map2_length; auto|]. intros r Hr. apply In_get with (d := []) in Hr. destruct Hr as (j & Hj & <-).
      rewrite map2_length in Hj by auto. rewrite (get_map2 _ [] []) by (auto; lia).
      assert (length (get [] old j) = ds_time ds) by (apply Ro; apply get_In; auto).
      assert (length (get [] (by_link ds m) j) = ds_time ds) by (apply Rn; apply get_In; lia).
      rewrite map2_length; lia.
    + intros j t Hj Ht. unfold at_link at 1. rewrite (get_map2 _ [] []) by (auto; lia).
      assert (length (get [] old j) = ds_time ds) by (apply Ro; apply get_In; lia).
      assert (length (get [] (by_link ds m) j) = ds_time ds) by (apply Rn; apply get_In; lia).
      unfold nget at 1. rewrite (get_map2 _ n_nan n_nan) by lia.
      fold (nget (get [] old j) t). fold (nget (get [] (by_link ds m) j) t).
      fold (at_link old j t). fold (at_link (by_link ds m) j t). rewrite by_link_at by auto. reflexivity.
    + intros x N. rewrite find_map_other by auto. reflexivity.
Qed.

(** ** calling it again on its own result *)
Definition same_inputs (vars : list string) (a b : dataset O) : Prop :=
  ds_ids a = ds_ids b /\ ds_time a = ds_time b /\ forall v, In v vars -> variable a v = variable b v.

Lemma link_inputs_same vars (a b : dataset O) cml : same_inputs vars a b -> link_inputs a cml vars = link_inputs b cml vars.
Proof.
  intros (I & T & V). unfold link_inputs. rewrite I, T. destruct (first_index (ds_ids b) cml) as [i|]; auto.
  assert (E : fold_right (fun v acc => match find (fun p => (fst p =? v)%string) (ds_vars a), acc with
                                 | Some p, Some rows => Some (get [] (snd p) i :: rows) | _, _ => None end) (Some []) vars
            = fold_right (fun v acc => match find (fun p => (fst p =? v)%string) (ds_vars b), acc with
                                 | Some p, Some rows => Some (get [] (snd p) i :: rows) | _, _ => None end) (Some []) vars).
  { clear I T. induction vars as [|v vars IH]; auto. cbn [fold_right]. rewrite IH by (intros; apply V; right; auto).
    pose proof (V v (or_introl eq_refl)) as E. unfold variable in E.
    destruct (find _ (ds_vars a)), (find _ (ds_vars b)); try discriminate; auto. cbn in E. injection E as ->. reflexivity. }
  rewrite E. reflexivity.
Qed.

Lemma cnn_same net vars seq_len sel (a b : dataset O) : same_inputs vars a b ->
  wet_dry_1d_cnn net a vars seq_len sel = wet_dry_1d_cnn net b vars seq_len sel.
Proof.
  intros H. pose proof H as (I & T & V). unfold wet_dry_1d_cnn. rewrite I. unfold create_samples.
  assert (E : forall l, mapM (fun cml => do inp <- link_inputs a cml vars; Ok (match inp with None => [] | Some inputs => link_samples seq_len cml inputs end)) l
                      = mapM (fun cml => do inp <- link_inputs b cml vars; Ok (match inp with None => [] | Some inputs => link_samples seq_len cml inputs end)) l).
  { induction l as [|x l IH]; auto. cbn [mapM]. rewrite (link_inputs_same vars a b x H). rewrite IH. reflexivity. }
  destruct (seq_len =? 0); auto. rewrite E. destruct (mapM _ _) as [ls|e]; auto. cbn [bind].
  destruct (length (List.concat ls) =? 0); auto. destruct (scale_features _ _ _); auto. cbn [bind]. unfold store_predictions. rewrite I, T. reflexivity.
Qed.

Lemma well_shaped_ext (ds : dataset O) a b : well_shaped ds a -> well_shaped ds b ->
  (forall j t, j < length (ds_ids ds) -> t < ds_time ds -> at_link a j t = at_link b j t) -> a = b.
Proof.
  intros [La Ra] [Lb Rb] H. apply (get_ext []); [lia|]. intros j Hj.
  assert (length (get [] a j) = ds_time ds) by (apply Ra; apply get_In; auto).
  assert (length (get [] b j) = ds_time ds) by (apply Rb; apply get_In; lia).
  apply (get_ext n_nan); [lia|]. intros t Ht. apply H; lia.
Qed.

Lemma eqb_refl_or_nan (x : O) : n_isnan x = true \/ n_eqb x x = true.
Proof.
  destruct (n_isnan x) eqn:N; [left; auto|right]. rewrite (val_eqb _ S). apply xeqb_true. split; auto. rewrite <- (val_isnan _ S). auto.
Qed.

(** prediction on a data set, result merged; the same call on the result gives
    the same variables again *)
Lemma rerun tf load (ds ds1 : full_ds O) id_coord vars seq_len name sel :
  f_dim ds = "cml_id"%string -> variable (f_data ds) name = None -> ~ In name vars -> name <> id_coord ->
  cnn_ds tf load ds id_coord vars seq_len name sel = Ok ds1 ->
  exists ds2, cnn_ds tf load ds1 id_coord vars seq_len name sel = Ok ds2 /\
    ds_ids (f_data ds2) = ds_ids (f_data ds1) /\ ds_time (f_data ds2) = ds_time (f_data ds1) /\
    forall v, variable (f_data ds2) v = variable (f_data ds1) v.
Proof.
  intros HD HV HI HN R. unfold cnn_ds in R. destruct (predict tf load ds id_coord vars seq_len sel) as [m|] eqn:P; [|discriminate].
  cbn [bind] in R. destruct (merge_new (f_data ds) name m HV) as (d1 & M & I1 & T1 & V1 & W1). rewrite M in R. cbn [bind] in R. injection R as <-.
  assert (P1 : predict tf load {| f_dim := f_dim ds; f_data := d1; f_coords := f_coords ds |} id_coord vars seq_len sel = Ok m).
  { rewrite <- P. unfold predict. destruct tf as [u|]; auto. cbn [bind].
    assert (HH : forall x, has_name {| f_dim := f_dim ds; f_data := d1; f_coords := f_coords ds |} x
                 = has_name ds x \/ x = name).
    { intros x. destruct (string_dec x name) as [->|NX]; [right; auto|left]. unfold has_name. cbn [f_dim f_coords f_data]. f_equal.
      assert (FI : forall l : list (string * list (list O)), existsb (fun p => (fst p =? x)%string) l = match find (fun p => (fst p =? x)%string) l with Some _ => true | None => false end).
      { induction l as [|q l IH]; auto. cbn. destruct (fst q =? x)%string; auto. }
      rewrite !FI. pose proof (W1 x NX) as E. unfold variable in E. destruct (find _ (ds_vars d1)), (find _ (ds_vars (f_data ds))); try discriminate; auto. }
    destruct (HH id_coord) as [->|E]; [|congruence].
    destruct (has_name ds id_coord); auto. cbn [negb].
    unfold link_values, sel_view. cbn [f_dim f_data f_coords]. rewrite I1, HD. cbn [String.eqb].
    destruct (match sel with Some l => Ok l | None => _ end); auto. cbn [bind]. destruct load; auto. cbn [bind].
    apply cnn_same. split; auto. split; auto. intros v Hv. apply W1. intros ->. contradiction. }
  unfold cnn_ds. rewrite P1. cbn [bind f_data f_dim f_coords].
  assert (SH : well_shaped d1 (by_link (f_data ds) m)).
  { destruct (by_link_shape (f_data ds) m) as [A B]. split; [rewrite I1; auto|rewrite T1; auto]. }
  assert (AT : forall j t, j < length (ds_ids d1) -> t < ds_time d1 -> at_link (by_link (f_data ds) m) j t = nget (get [] m t) j).
  { rewrite I1, T1. intros. apply by_link_at; auto. }
  destruct (merge_existing d1 name m _ V1 SH) as [_ G]. destruct G as (d2 & v & M2 & I2 & T2 & V2 & S2 & A2 & W2).
  { intros j t Hj Ht. rewrite AT by auto. destruct (eqb_refl_or_nan (nget (get [] m t) j)); auto. }
  rewrite M2. cbn [bind]. eexists. split; [reflexivity|]. cbn [f_data]. split; auto. split; auto. intros x.
  destruct (string_dec x name) as [->|NX]; [|auto]. rewrite V2, V1. f_equal. apply (well_shaped_ext d1); auto.
  intros j t Hj Ht. rewrite A2 by auto. rewrite AT by auto. destruct (n_isnan _); auto.
Qed.
End P.

Lemma other_coordinate {O : numops} net (ds : full_ds O) id_coord vals vars seq_len :
  f_dim ds = "cml_id"%string -> id_coord <> "cml_id"%string -> find (fun p => (fst p =? id_coord)%string) (f_coords ds) = Some (id_coord, vals) ->
  predict (Ok tt) (Ok net) ds id_coord vars seq_len None = wet_dry_1d_cnn net (f_data ds) vars seq_len (Some vals).
Proof.
  intros H N F. unfold predict. cbn [bind].
  assert (has_name ds id_coord = true) as ->.
  { unfold has_name. assert (existsb (fun p => (fst p =? id_coord)%string) (f_coords ds) = true) as ->; [|rewrite !orb_true_r; reflexivity].
    apply existsb_exists. apply find_some in F. exists (id_coord, vals). exact F. }
  cbn [negb]. unfold link_values, sel_view. rewrite H, F. destruct (String.eqb_spec id_coord "cml_id"); [contradiction|]. reflexivity.
Qed.

(** links that are no value of the dimension are skipped: with none left the call fails *)
Lemma foreign_links {O : numops} net (ds : dataset O) vars seq_len sel : 1 <= seq_len -> (forall s, In s sel -> ~ In s (ds_ids ds)) ->
  wet_dry_1d_cnn net ds vars seq_len (Some sel) = Err IndexError.
Proof.
  intros H N. unfold wet_dry_1d_cnn, create_samples. destruct (Nat.eqb_spec seq_len 0); [lia|].
  assert (exists ls, mapM (fun cml => do inp <- link_inputs ds cml vars; Ok (match inp with None => [] | Some inputs => link_samples seq_len cml inputs end)) sel = Ok ls
    /\ List.concat ls = []) as (ls & EL & C).
  { induction sel as [|s sel IH]; [exists []; auto|]. destruct IH as (ls & E & C); [intros; apply N; right; auto|].
    exists ([] :: ls). cbn [mapM]. assert (link_inputs ds s vars = Ok None) as ->.
    { unfold link_inputs. rewrite (proj2 (first_index_none _ _)); auto. apply N. left. auto. }
    cbn [bind]. rewrite E. auto. }
  rewrite EL. cbn [bind]. rewrite C. reflexivity.
Qed.

Lemma subset_conflicts : exists (load : res (list (list F64) -> F64)) (ds ds1 : full_ds F64),
  cnn_ds (Ok tt) load ds "cml_id" ["TL"%string] 1 "prob" None = Ok ds1 /\
  cnn_ds (Ok tt) load ds1 "cml_id" ["TL"%string] 1 "prob" (Some ["a"%string]) = Err ValueError.
Proof.
  exists (Ok (fun w => n_sum (List.concat w))).
  exists {| f_dim := "cml_id"; f_coords := [];
            f_data := {| ds_ids := ["a"; "b"]%string; ds_time := 3; ds_vars := [("TL"%string, [[#1; #1; #5]; [fNaN; #5; fNaN]])] |} |}.
  match goal with |- exists d, ?r = Ok d /\ @?P d =>
    assert (H : match r with
                | Ok d => match cnn_ds (Ok tt) (Ok (fun w => n_sum (List.concat w))) d "cml_id" ["TL"%string] 1 "prob" (Some ["a"%string]) with
                          | Err ValueError => true | _ => false end
                | Err _ => false end = true) by (vm_compute; reflexivity);
    destruct r as [d1|]; [|discriminate] end.
  exists d1. split; [reflexivity|]. destruct (cnn_ds _ _ d1 _ _ _ _ _) as [|e]; [discriminate|]. destruct e; try discriminate. reflexivity.
Qed.
