(** * Proofs about the 1D CNN inference *)
From Coq Require Import List ZArith Bool String Lia Arith.
From Verif Require Import Base Num NumList NpOps NearbyWetdry_model NearbyWetdry_proofs Mlp_proofs TfInfer_model TfInfer_spec TfInfer_proofs.
Import ListNotations.
Local Open Scope nat_scope.
Local Notation length := List.length.

Section P.
Context {O : numops}.
Notation dv := (EmptyString, @nil (list O)).

Lemma value_at_unique (ds : dataset O) v i t x y : value_at ds v i t x -> value_at ds v i t y -> x = y.
Proof.
  intros (k & K1 & K2 & K3 & ->) (k' & K1' & K2' & K3' & ->). assert (k = k'); [|subst; auto].
  destruct (Nat.lt_trichotomy k k') as [H|[H|H]]; auto; exfalso; [apply (K3' k H); auto|apply (K3 k' H); auto].
Qed.

Lemma find_var (ds : dataset O) v : In v (map fst (ds_vars ds)) ->
  exists p, find (fun p => (fst p =? v)%string) (ds_vars ds) = Some p /\ forall i t, value_at ds v i t (nget (get [] (snd p) i) t).
Proof.
  unfold value_at. generalize (ds_vars ds). intros l. induction l as [|[w m] l IH]; intros Hin; [destruct Hin|]. cbn [find fst].
  destruct (String.eqb_spec w v) as [->|N].
  - eexists. split; [reflexivity|]. intros i t. exists 0. cbn. repeat split; auto; lia.
  - destruct Hin as [E|Hin]; [contradiction|]. destruct (IH Hin) as (p & Ep & H). exists p. split; auto. intros i t.
    destruct (H i t) as (k & K1 & K2 & K3 & K4). exists (Datatypes.S k). cbn [length]. split; [lia|]. split; auto. split; auto.
    intros [|k'] Hk; auto. apply K3. lia.
Qed.

Lemma inputs_ok (ds : dataset O) cml vars i : first_index (ds_ids ds) cml = Some i -> has_vars ds vars -> vars <> [] ->
  exists rows, link_inputs ds cml vars = Ok (Some rows) /\ length rows = ds_time ds /\
  forall t, t < ds_time ds -> length (get [] rows t) = length vars /\ forall k, k < length vars -> value_at ds (get EmptyString vars k) i t (nget (get [] rows t) k).
Proof.
  intros Ei HV NE. unfold link_inputs. rewrite Ei.
  assert (C : exists cols, fold_right (fun v acc => match find (fun p => (fst p =? v)%string) (ds_vars ds), acc with
                                     | Some p, Some rows => Some (get [] (snd p) i :: rows) | _, _ => None end) (Some []) vars = Some cols /\
    length cols = length vars /\ forall k t, k < length vars -> value_at ds (get EmptyString vars k) i t (nget (get [] cols k) t)).
  { clear NE. induction vars as [|v vars IH]; [exists []; cbn; repeat split; auto; lia|].
    destruct IH as (cols & E & L & H); [intros w Hw; apply HV; right; auto|]. destruct (find_var ds v) as (p & Ep & Hp); [apply HV; left; auto|].
    cbn [fold_right]. rewrite Ep, E. eexists. split; [reflexivity|]. split; [cbn; lia|]. intros [|k] t Hk; [apply Hp|]. apply H. cbn in Hk. lia. }
  destruct C as (cols & E & L & H). rewrite E. destruct cols as [|c0 cols]; [destruct vars; [congruence|discriminate]|]. set (cs := c0 :: cols) in *. clearbody cs.
  eexists. split; [reflexivity|]. split; [rewrite map_length, seq_length; auto|]. intros t Ht. rewrite get_map_seq by auto. split; [rewrite map_length; auto|].
  intros k Hk. unfold nget at 1. rewrite (get_map _ []) by lia. auto.
Qed.

Lemma finite_rows (l : list (list O)) : forallb (forallb finite) l = true <-> forall s k, s < length l -> k < length (get [] l s) -> n_isnan (nget (get [] l s) k) = false /\ n_isinf (nget (get [] l s) k) = false.
Proof.
  rewrite forallb_forall. split.
  - intros H s k Hs Hk. specialize (H _ (get_In [] l s Hs)). rewrite forallb_forall in H. specialize (H _ (get_In n_nan _ k Hk)).
    unfold finite in H. apply andb_true_iff in H. destruct H as [H1 H2]. apply negb_true_iff in H1, H2. auto.
  - intros H row Hr. apply (In_get []) in Hr. destruct Hr as (s & Hs & <-). apply forallb_forall. intros v Hv. apply (In_get n_nan) in Hv. destruct Hv as (k & Hk & <-).
    destruct (H s k Hs Hk) as [H1 H2]. unfold finite, nget in *. rewrite H1, H2. reflexivity.
Qed.

Lemma link_samples_In seq_len cml (inputs : list (list O)) x c t : 1 <= seq_len ->
  (In (x, c, t) (link_samples seq_len cml inputs) <-> c = cml /\ seq_len <= t + 1 /\ t < length inputs /\ x = slice (t + 1 - seq_len) (t + 1) inputs /\ forallb (forallb finite) x = true).
Proof.
  intros H1. unfold link_samples. destruct (Nat.ltb_spec (length inputs) seq_len) as [Hs|Hs].
  - split; [intros []|]. intros (_ & ? & ? & _). lia.
  - rewrite in_flat_map. split.
    + intros (u & Hu & Hin). apply in_seq in Hu. destruct (forallb (forallb finite) (slice (u + 1 - seq_len) (u + 1) inputs)) eqn:F; [|destruct Hin].
      destruct Hin as [E|[]]. injection E as <- <- <-. repeat split; auto; lia.
    + intros (-> & A & B & -> & F). exists t. split; [apply in_seq; lia|]. rewrite F. left. reflexivity.
Qed.

Lemma NoDup_filter_seq {A} (f : nat -> bool) (g : nat -> A) (key : A -> nat) (l : list nat) : (forall t, key (g t) = t) -> NoDup l ->
  NoDup (map key (flat_map (fun t => if f t then [g t] else []) l)).
Proof.
  intros Hk. induction l as [|t l IH]; intros ND; [constructor|]. inversion ND; subst. cbn [flat_map]. destruct (f t); cbn [app map]; auto. constructor; auto.
  rewrite Hk, in_map_iff. intros (a & Ea & Ha). apply in_flat_map in Ha. destruct Ha as (u & Hu & Ha). destruct (f u); [|destruct Ha]. destruct Ha as [<-|[]]. rewrite Hk in Ea. subst u. contradiction.
Qed.
Lemma link_samples_keys seq_len cml (inputs : list (list O)) : NoDup (map (fun r => snd r) (link_samples seq_len cml inputs)).
Proof.
  unfold link_samples. destruct (_ <? _); [constructor|].
  apply (NoDup_filter_seq (fun t => forallb (forallb finite) (slice (t + 1 - seq_len) (t + 1) inputs)) (fun t => (slice (t + 1 - seq_len) (t + 1) inputs, cml, t)) (fun r => snd r)); auto.
  apply seq_NoDup.
Qed.
Lemma NoDup_map_factor {A B C} (f : A -> B) (g : B -> C) (h : A -> C) l : (forall a, In a l -> g (f a) = h a) -> NoDup (map h l) -> NoDup (map f l).
Proof.
  induction l as [|a l IH]; intros E ND; [constructor|]. cbn in *. inversion ND; subst. constructor; auto.
  rewrite in_map_iff. intros (b & Eb & Hb). apply H1. rewrite in_map_iff. exists b. split; auto. rewrite <- (E a), <- (E b) by auto. congruence.
Qed.

Lemma sample_window (ds : dataset O) vars rows seq_len i t x : length rows = ds_time ds ->
  (forall t, t < ds_time ds -> length (get [] rows t) = length vars /\ forall k, k < length vars -> value_at ds (get EmptyString vars k) i t (nget (get [] rows t) k)) ->
  seq_len <= t + 1 -> t < ds_time ds ->
  (x = slice (t + 1 - seq_len) (t + 1) rows /\ forallb (forallb finite) x = true <-> window ds vars seq_len i t x).
Proof.
  intros LR HR A B.
  assert (LS : length (slice (t + 1 - seq_len) (t + 1) rows) = seq_len) by (rewrite slice_length; lia).
  assert (GS : forall s, s < seq_len -> get [] (slice (t + 1 - seq_len) (t + 1) rows) s = get [] rows (t + 1 - seq_len + s)) by (intros; apply get_slice; lia).
  split.
  - intros [-> F]. split; auto. split; auto. split; auto. intros s Hs. destruct (HR (t + 1 - seq_len + s)) as [R1 R2]; [lia|]. rewrite GS by auto. split; auto.
    intros k Hk. split; auto. pose proof (proj1 (finite_rows _) F s k) as Q. rewrite LS, GS in Q by auto. rewrite R1 in Q. auto.
  - intros (_ & _ & Lx & H).
    assert (E : x = slice (t + 1 - seq_len) (t + 1) rows).
    { apply (get_ext []); [lia|]. intros s Hs. rewrite Lx in Hs. destruct (H s Hs) as [X1 X2]. rewrite GS by auto. destruct (HR (t + 1 - seq_len + s)) as [R1 R2]; [lia|].
      apply (get_ext n_nan); [lia|]. intros k Hk. rewrite X1 in Hk. destruct (X2 k Hk) as [V _]. exact (value_at_unique _ _ _ _ _ _ V (R2 k Hk)). }
    split; auto. apply finite_rows. intros s k Hs Hk. rewrite Lx in Hs. destruct (H s Hs) as [X1 X2]. rewrite X1 in Hk. apply X2; auto.
Qed.

Lemma NoDup_app_intro {A} (l k : list A) : NoDup l -> NoDup k -> (forall x, In x l -> In x k -> False) -> NoDup (l ++ k).
Proof.
  induction l as [|a l IH]; intros Hl Hk D; auto. inversion Hl; subst. cbn. constructor.
  - rewrite in_app_iff. intros [H|H]; [contradiction|]. apply (D a); auto. left; auto.
  - apply IH; auto. intros x H3 H4. apply (D x); auto. right; auto.
Qed.
(** ** the samples are exactly the valid windows *)
Lemma create_samples_ok (ds : dataset O) cml_ids vars seq_len : 1 <= seq_len -> has_vars ds vars -> vars <> [] ->
  exists s, create_samples ds cml_ids vars seq_len = Ok s /\
  (NoDup cml_ids -> NoDup (map (fun r => (snd (fst r), snd r)) s)) /\
  forall x c t, In (x, c, t) s <-> In c cml_ids /\ exists i, first_index (ds_ids ds) c = Some i /\ window ds vars seq_len i t x.
Proof.
  intros H1 HV NE. unfold create_samples. destruct (Nat.eqb_spec seq_len 0); [lia|].
  set (f := fun cml => do inp <- link_inputs ds cml vars; Ok (match inp with None => [] | Some inputs => link_samples seq_len cml inputs end)).
  assert (F : forall cml, exists l, f cml = Ok l /\ NoDup (map (fun r => snd r) l) /\ forall x c t, In (x, c, t) l <-> c = cml /\ exists i, first_index (ds_ids ds) c = Some i /\ window ds vars seq_len i t x).
  { intros cml. unfold f. destruct (first_index (ds_ids ds) cml) as [i|] eqn:Ei.
    - destruct (inputs_ok ds cml vars i Ei HV NE) as (rows & E & L & H). rewrite E. cbn [bind]. eexists. split; [reflexivity|]. split; [apply link_samples_keys|]. intros x c t. rewrite link_samples_In by auto. rewrite L. split.
      + intros (-> & A & B & C). split; auto. exists i. split; auto. apply (sample_window ds vars rows); auto.
      + intros (-> & i' & Ei' & W). assert (i' = i) by congruence. subst i'. split; auto. assert (W' := W). destruct W' as (B & A & _). split; auto. split; auto. apply (sample_window ds vars rows seq_len i); auto.
    - unfold link_inputs. rewrite Ei. cbn [bind]. eexists. split; [reflexivity|]. split; [constructor|]. intros x c t. split; [intros []|]. intros (-> & i & E & _). congruence. }
  clearbody f. induction cml_ids as [|cml cml_ids IH].
  - exists []. split; auto. split; [intros; constructor|]. intros x c t. split; [intros []|]. intros [[] _].
  - destruct IH as (s & E & HND & H). destruct (F cml) as (l & El & Ndl & Hl). cbn [mapM]. rewrite El. cbn [bind]. destruct (mapM f cml_ids) as [ls|]; [|discriminate]. cbn [bind] in *. injection E as <-.
    exists (l ++ List.concat ls). split; auto. split.
    { intros ND. inversion ND; subst. rewrite map_app. apply NoDup_app_intro; auto.
      - apply (NoDup_map_factor _ snd (fun r => snd r)); auto.
      - intros k Ha Hb. apply in_map_iff in Ha, Hb. destruct Ha as ([[x c] t] & <- & Ha), Hb as ([[x' c'] t'] & E' & Hb). cbn in E'. injection E' as -> ->.
        apply Hl in Ha. apply H in Hb. destruct Ha as [-> _], Hb as [Hb _]. contradiction. }
    intros x c t. rewrite in_app_iff, Hl, H. cbn [In]. split.
    + intros [[-> Q]|[Q1 Q2]]; auto.
    + intros [[->|Q1] Q2]; auto.
Qed.

(** ** scaling is one affine map per variable *)
Definition scale1 (ps : list (O * O)) (w : list (list O)) : list (list O) := map (fun row => map2 transform ps row) w.
Lemma scale1_scaled (ps : list (O * O)) (w : list (list O)) : (forall s, s < length w -> length (get [] w s) = length ps) -> scaled ps w (scale1 ps w).
Proof.
  intros H. unfold scaled, scale1. rewrite map_length. split; auto. intros s Hs. rewrite (get_map _ []) by auto. specialize (H s Hs). split; [rewrite map2_length; auto|].
  intros k Hk. unfold nget at 1. rewrite (get_map2 _ (n_nan, n_nan) n_nan); auto; lia.
Qed.
Lemma scaled_unique (ps : list (O * O)) (w z z' : list (list O)) : scaled ps w z -> scaled ps w z' -> z = z'.
Proof.
  intros [L H] [L' H']. apply (get_ext []); [lia|]. intros s Hs. destruct (H s) as [A B]; [lia|]. destruct (H' s) as [A' B']; [lia|].
  apply (get_ext n_nan); [lia|]. intros k Hk. pose proof (B k ltac:(lia)) as Q. pose proof (B' k ltac:(lia)) as Q'. unfold nget in *. congruence.
Qed.

Lemma zip3_map {A} (f : A -> O) (g : A -> string) (h : A -> Z) l : zip3 (map f l) (map g l) (map h l) = map (fun r => (f r, g r, h r)) l.
Proof. unfold zip3. induction l as [|a l IH]; auto. cbn. f_equal. exact IH. Qed.

Lemma option_eq_dec_nat (a b : option nat) : {a = b} + {a <> b}. Proof. decide equality. apply Nat.eq_dec. Qed.
Definition last_app {A} (P : A -> Prop) (l : list A) := exists a r b, l = a ++ r :: b /\ P r /\ forall r', In r' b -> ~ P r'.
Lemma last_exists {A} (P : A -> Prop) (dec : forall r, {P r} + {~ P r}) l : (exists r, In r l /\ P r) -> last_app P l.
Proof.
  induction l as [|x l IH]; intros (r & Hin & HP); [destruct Hin|]. destruct (existsb (fun r => if dec r then true else false) l) eqn:E.
  - apply existsb_exists in E. destruct E as (q & Hq & Dq). destruct (dec q) as [Pq|]; [|discriminate]. destruct IH as (a & r0 & b & -> & H); [eauto|]. exists (x :: a), r0, b. auto.
  - assert (N : forall r', In r' l -> ~ P r').
    { intros r' Hr' HP'. apply not_true_iff_false in E. apply E. apply existsb_exists. exists r'. split; auto. destruct (dec r'); auto. }
    exists [], x, l. split; auto. split; auto. destruct Hin as [->|Hin]; auto. exfalso. apply (N r); auto.
Qed.
Lemma addresses_dec n ids use (r : O * string * Z) t j : {addresses n ids use r t j} + {~ addresses n ids use r t j}.
Proof.
  destruct r as [[v c] i]. destruct (lt_dec j (length ids)) as [Hj|Hj]; [|right; unfold addresses; tauto].
  assert (D : {In c use /\ get EmptyString ids j = c /\ first_index ids c = Some j /\ (i = Z.of_nat t \/ i = Z.of_nat t - Z.of_nat n)%Z} +
              {~ (In c use /\ get EmptyString ids j = c /\ first_index ids c = Some j /\ (i = Z.of_nat t \/ i = Z.of_nat t - Z.of_nat n)%Z)}).
  { destruct (in_dec string_dec c use), (string_dec (get EmptyString ids j) c), (option_eq_dec_nat (first_index ids c) (Some j)), (Z.eq_dec i (Z.of_nat t)), (Z.eq_dec i (Z.of_nat t - Z.of_nat n)%Z); tauto. }
  destruct D as [(A & B & C & D)|N].
  - left. apply addresses_hits; auto. cbn. split; auto. rewrite B. split; auto. split; auto.
  - right. intros H. apply addresses_hits in H; auto. destruct H as (A & B & C & D). cbn in *. subst c. apply N. auto.
Qed.

(** ** the whole inference *)
Lemma cnn_correct net (ds : dataset O) vars seq_len sel : NoDup (ds_ids ds) -> 1 <= seq_len -> has_vars ds vars -> vars <> [] ->
  (exists j t w, has_window ds vars seq_len sel j t w) ->
  exists X ps m, wet_dry_1d_cnn net ds vars seq_len sel = Ok m /\
  all_windows ds vars seq_len sel X /\
  ps = map (fun k => fit_scaler (feature k X)) (seq 0 (length vars)) /\
  length m = ds_time ds /\ forall t, t < ds_time ds -> length (get [] m t) = length (ds_ids ds) /\ forall j, j < length (ds_ids ds) ->
    (forall w, has_window ds vars seq_len sel j t w -> exists z, scaled ps w z /\ nget (get [] m t) j = net z) /\
    ((forall w, ~ has_window ds vars seq_len sel j t w) -> nget (get [] m t) j = n_nan).
Proof.
  intros ND H1 HV NE EX. destruct (create_samples_ok ds (links_of ds sel) vars seq_len H1 HV NE) as (s & Es & HK & Hs).
  set (X := map (fun r => fst (fst r)) s). set (ps := map (fun k => fit_scaler (feature k X)) (seq 0 (length vars))).
  set (recs := map (fun r => (net (scale1 ps (fst (fst r))), snd (fst r), Z.of_nat (snd r))) s).
  assert (IN : forall x c t, In (x, c, t) s <-> exists j, c = get EmptyString (ds_ids ds) j /\ has_window ds vars seq_len sel j t x).
  { intros x c t. rewrite Hs. unfold has_window. split.
    - intros (Hc & i & Ei & W). exists i. apply first_index_some in Ei. destruct Ei as (I1 & I2 & _). subst c. auto.
    - intros (j & -> & J & Hl & W). split; auto. exists j. split; auto. apply first_index_nodup; auto. }
  assert (LW : forall j t w, has_window ds vars seq_len sel j t w -> forall u, u < length w -> length (get [] w u) = length ps).
  { intros j t w (_ & _ & W) u Hu. unfold ps. rewrite map_length, seq_length. destruct W as (_ & _ & L & W). apply W. lia. }
  assert (NS : length s <> 0).
  { destruct EX as (j & t & w & W). assert (In (w, get EmptyString (ds_ids ds) j, t) s) by (apply IN; exists j; auto). destruct s; [contradiction|discriminate]. }
  destruct (store_correct ds (map net (map (scale1 ps) X)) (map (fun r => snd (fst r)) s) (map (fun r => Z.of_nat (snd r)) s) None) as (m & Em & Lm & Hm).
  { unfold X. rewrite !map_length. auto. }
  { unfold X. rewrite !map_length. auto. }
  { unfold X. rewrite !map_map. rewrite zip3_map. intros r Hr _ _. apply in_map_iff in Hr. destruct Hr as (q & <- & _). cbn. lia. }
  exists X, ps, m. split.
  { unfold wet_dry_1d_cnn. fold (links_of ds sel). rewrite Es. cbn [bind]. destruct (Nat.eqb_spec (length s) 0); [contradiction|].
    unfold scale_features. rewrite Nat.ltb_irrefl. cbn [bind]. exact Em. }
  split.
  { set (idx := fun c => match first_index (ds_ids ds) c with Some i => i | None => 0 end).
    assert (HI : forall j, j < length (ds_ids ds) -> idx (get EmptyString (ds_ids ds) j) = j) by (intros j Hj; unfold idx; rewrite first_index_nodup; auto).
    exists (map (fun r => (idx (snd (fst r)), snd r)) s). split; [|split].
    - assert (Q : forall l, (forall r, In r l -> In r s) -> Forall2 (fun jt w => has_window ds vars seq_len sel (fst jt) (snd jt) w) (map (fun r => (idx (snd (fst r)), snd r)) l) (map (fun r => fst (fst r)) l)).
      { induction l as [|[[x c] t] l IH]; intros Hl; [constructor|]. cbn [map fst snd]. constructor; [|apply IH; intros r Hr; apply Hl; right; auto].
        cbn [fst snd]. destruct (proj1 (IN x c t) (Hl _ (or_introl eq_refl))) as (j & -> & W). rewrite HI by apply W. exact W. }
      apply Q; auto.
    - intros j t w W. apply in_map_iff. exists (w, get EmptyString (ds_ids ds) j, t). cbn [fst snd]. rewrite HI by apply W. split; auto. apply IN. eauto.
    - intros NDl. apply (NoDup_map_factor _ (fun jt => (get EmptyString (ds_ids ds) (fst jt), snd jt)) (fun r => (snd (fst r), snd r))); auto.
      intros [[x c] t] Hr. apply IN in Hr. destruct Hr as (j & -> & W). cbn [fst snd]. rewrite HI by apply W. reflexivity. }
  split; auto. split; auto. intros t Ht. destruct (Hm t Ht) as [LR HR]. split; auto. intros j Hj. destruct (HR j Hj) as [HA HB]. clear HR Hm.
  assert (ER : zip3 (map net (map (scale1 ps) X)) (map (fun r => snd (fst r)) s) (map (fun r => Z.of_nat (snd r)) s) = recs).
  { unfold X, recs. rewrite !map_map. apply zip3_map. }
  rewrite ER in *. set (use := used (map (fun r => snd (fst r)) s) None) in *.
  assert (AD : forall r, In r recs -> addresses (ds_time ds) (ds_ids ds) use r t j -> exists w, has_window ds vars seq_len sel j t w /\ fst (fst r) = net (scale1 ps w)).
  { intros r Hr HAd. unfold recs in Hr. apply in_map_iff in Hr. destruct Hr as ([[x c] u] & <- & Hin). cbn [fst snd] in *. destruct HAd as (_ & _ & A3 & _ & A5).
    apply IN in Hin. destruct Hin as (j' & Ec & W). assert (j' = j).
    { apply (proj1 (NoDup_nth (ds_ids ds) EmptyString) ND); [apply W|auto|]. unfold get in *. congruence. }
    subst j'. assert (u = t) by (destruct W as (_ & _ & (? & _)); lia). subst u. eauto. }
  split.
  - intros w W. destruct (last_exists (fun r => addresses (ds_time ds) (ds_ids ds) use r t j) (fun r => addresses_dec _ _ _ _ _ _) recs) as (a & r & b & Ea & Pr & Hb).
    { exists (net (scale1 ps w), get EmptyString (ds_ids ds) j, Z.of_nat t). assert (Hin : In (w, get EmptyString (ds_ids ds) j, t) s) by (apply IN; eauto). split.
      - unfold recs. apply in_map_iff. exists (w, get EmptyString (ds_ids ds) j, t). auto.
      - split; [unfold use; cbn; apply in_map_iff; exists (w, get EmptyString (ds_ids ds) j, t); auto|]. split; auto. split; auto. split; [|left; auto].
        intros j' Hj' E. assert (j' = j); [|lia]. apply (proj1 (NoDup_nth (ds_ids ds) EmptyString) ND); auto; lia. }
    destruct (AD r) as (w' & W' & Ev); [rewrite Ea; apply in_or_app; right; left; auto|auto|].
    assert (w' = w).
    { destruct W as (_ & _ & (_ & _ & L & W)), W' as (_ & _ & (_ & _ & L' & W')). apply (get_ext []); [lia|]. intros u Hu. rewrite L' in Hu. destruct (W u Hu) as [Q1 Q2], (W' u Hu) as [Q1' Q2'].
      apply (get_ext n_nan); [lia|]. intros k Hk. rewrite Q1' in Hk. destruct (Q2 k Hk) as [V _], (Q2' k Hk) as [V' _]. exact (value_at_unique _ _ _ _ _ _ V' V). }
    subst w'. exists (scale1 ps w). split; [apply scale1_scaled; eapply LW; eauto|]. apply HA. exists a, r, b. auto.
  - intros HN. apply HB. intros r Hr HAd. destruct (AD r Hr HAd) as (w & W & _). apply (HN w). exact W.
Qed.

Lemma cnn_no_samples net (ds : dataset O) vars seq_len sel : NoDup (ds_ids ds) -> 1 <= seq_len -> has_vars ds vars -> vars <> [] ->
  (forall j t w, ~ has_window ds vars seq_len sel j t w) -> wet_dry_1d_cnn net ds vars seq_len sel = Err IndexError.
Proof.
  intros ND H1 HV NE HN. destruct (create_samples_ok ds (links_of ds sel) vars seq_len H1 HV NE) as (s & Es & HK & Hs).
  unfold wet_dry_1d_cnn. fold (links_of ds sel). rewrite Es. cbn [bind]. destruct s as [|[[x c] t] s]; auto. exfalso.
  destruct (proj1 (Hs x c t) (or_introl eq_refl)) as (Hc & i & Ei & W). apply first_index_some in Ei. destruct Ei as (I1 & <- & _). apply (HN i t x). split; auto.
Qed.
End P.
