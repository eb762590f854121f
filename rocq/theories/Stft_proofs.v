(** * Proofs about the STFT classification *)
From Coq Require Import List ZArith Bool Lia Arith Reals Lra.
From Flocq Require Import Core.
From Verif Require Import Base Num NumList NpOps MinMax_model Stft_model Stft_spec.
Import ListNotations.
Local Open Scope nat_scope.

Lemma py_bound_nat n a : py_bound n (Z.of_nat a) = Nat.min a n.
Proof. unfold py_bound. destruct (Z.ltb_spec (Z.of_nat a) 0); lia. Qed.

Section Nan.
Context {O : numops} (S : numsem O).

Lemma add_nan_l (x y : O) : n_isnan x = true -> n_isnan (n_add x y) = true.
Proof. rewrite !(val_isnan _ S), (val_add _ S), (rnd_nan _ S). intros. rewrite xadd_nan; auto. Qed.
Lemma add_nan_r (x y : O) : n_isnan y = true -> n_isnan (n_add x y) = true.
Proof. rewrite !(val_isnan _ S), (val_add _ S), (rnd_nan _ S). intros. rewrite xadd_comm, xadd_nan; auto. Qed.
Lemma xdiv_nan_l a b : xisnan a = true -> xisnan (xdiv a b) = true.
Proof. destruct a; try discriminate. auto. Qed.
Lemma xdiv_nan_r a b : xisnan b = true -> xisnan (xdiv a b) = true.
Proof. destruct b; try discriminate. destruct a; auto. Qed.
Lemma div_nan_l (x y : O) : n_isnan x = true -> n_isnan (n_div x y) = true.
Proof.
  rewrite !(val_isnan _ S). intros H.
  assert (D : val S y = XFin 0%R \/ val S y <> XFin 0%R).
  { destruct (val S y) as [| |r|]; try (right; discriminate). destruct (Req_dec r 0) as [->|N]; [left; auto|right]. intros E. injection E. auto. }
  destruct D as [D|D].
  - destruct (val_div0 _ S x y D) as [H0 _]. rewrite H0; auto.
  - rewrite (val_div _ S) by auto. rewrite (rnd_nan _ S). apply xdiv_nan_l; auto.
Qed.
Lemma div_nan_r (x y : O) : n_isnan y = true -> n_isnan (n_div x y) = true.
Proof.
  rewrite !(val_isnan _ S). intros H. rewrite (val_div _ S) by (intros E; rewrite E in H; discriminate).
  rewrite (rnd_nan _ S). apply xdiv_nan_r; auto.
Qed.
Lemma div_one (x : O) : val S (n_div x (n_ofZ 1)) = val S x.
Proof.
  assert (E : val S (n_ofZ 1) = XFin 1) by (apply (val_ofZ _ S); cbn; lia).
  rewrite (val_div _ S), E by (rewrite E; intros E'; injection E'; lra).
  assert (D : xdiv (val S x) (XFin 1) = val S x).
  { destruct (val S x) as [| |r|]; unfold xdiv; auto.
    - destruct (Rlt_bool_spec 1 0); [lra|]. reflexivity.
    - destruct (Req_bool_spec 1 0); [lra|]. f_equal. field.
    - destruct (Rlt_bool_spec 1 0); [lra|]. reflexivity. }
  rewrite D. apply (rnd_val _ S).
Qed.
Lemma fold_nan (l : list O) a : n_isnan a = true -> n_isnan (fold_left n_add l a) = true.
Proof. revert a. induction l as [|x l IH]; intros a H; cbn; auto. apply IH, add_nan_l, H. Qed.
Lemma sum_nan (l : list O) x : In x l -> n_isnan x = true -> n_isnan (n_sum l) = true.
Proof.
  unfold n_sum. generalize (zero : O). induction l as [|y l IH]; intros a Hi Hx; [destruct Hi|]. cbn. destruct Hi as [->|Hi]; [apply fold_nan, add_nan_r, Hx|]. apply IH; auto.
Qed.
(** a mean is NaN if the list is empty or has a NaN *)
Lemma mean_nil : n_isnan (n_mean ([] : list O)) = true.
Proof.
  unfold n_mean. cbn [length Z.of_nat]. rewrite (val_isnan _ S). destruct (val_div0 _ S (n_sum []) (n_ofZ 0) (val_0 S)) as [H _].
  rewrite H; auto. right. apply (val_0 S).
Qed.
Lemma mean_nan (l : list O) x : In x l -> n_isnan x = true -> n_isnan (n_mean l) = true.
Proof. intros H1 H2. apply div_nan_l. eapply sum_nan; eauto. Qed.
Lemma mean_all_nan (l : list O) : (forall x, In x l -> n_isnan x = true) -> n_isnan (n_mean l) = true.
Proof. destruct l as [|x l]; intros H; [apply mean_nil|]. apply (mean_nan _ x); [left; auto|]. apply H. left; auto. Qed.
End Nan.

Section P.
Context {O : numops}.

Lemma filter_isnan_app (l k : list O) : filter (fun x => negb (n_isnan x)) (l ++ k) = filter (fun x => negb (n_isnan x)) l ++ filter (fun x => negb (n_isnan x)) k.
Proof. apply filter_app. Qed.

(** ** the extended spectrogram *)
Lemma extend_ok (rsl : list O) P N c : P <> [] -> rect c P -> c <= length rsl ->
  exists E, extend rsl false P N = Ok E /\ length E = length P /\
    forall k, k < length P -> get [] E k = map (power P (length rsl) c k) (seq 0 (length rsl)).
Proof.
  intros NE R H. set (n := length rsl) in *. unfold extend. destruct P as [|row P']; [congruence|]. set (P := row :: P') in *.
  assert (L : length row = c) by (inversion R; auto). fold n. rewrite L. set (s := (n - c) / 2).
  assert (Es : ((Z.of_nat n - Z.of_nat c) / 2)%Z = Z.of_nat s). { unfold s. rewrite Nat2Z.inj_div. f_equal. lia. }
  assert (Sle : 2 * s <= n - c). { unfold s. pose proof (Nat.div_mod (n - c) 2 ltac:(lia)). lia. }
  rewrite Es. unfold nans. destruct (Z.ltb_spec (Z.of_nat s) 0); [lia|]. cbn [bind]. destruct (Z.ltb_spec (Z.of_nat n - Z.of_nat c - Z.of_nat s) 0); [lia|]. cbn [bind].
  eexists; split; [reflexivity|]. rewrite Nat2Z.id. set (e := Z.to_nat (Z.of_nat n - Z.of_nat c - Z.of_nat s)). assert (Ee : e = n - c - s) by (unfold e; lia). clearbody e.
  assert (L1 : length (map2 (@app O) (repeat (repeat n_nan s) (length P)) P) = length P) by (rewrite map2_length; rewrite repeat_length; auto).
  split; [rewrite map2_length; rewrite L1; auto; rewrite repeat_length; auto|]. intros k Hk.
  rewrite (get_map2 _ [] []) by (rewrite L1, ?repeat_length; auto). rewrite (get_map2 _ [] []) by (rewrite repeat_length; auto). rewrite !get_repeat by auto.
  assert (Lk : length (get [] P k) = c). { unfold rect in R. rewrite Forall_forall in R. apply R. apply get_In. auto. }
  apply (get_ext n_nan); [rewrite !app_length, !repeat_length, map_length, seq_length; lia|].
  intros t Ht. rewrite !app_length, !repeat_length in Ht. rewrite get_map_seq by lia. unfold power, centred. fold s.
  unfold get at 1. destruct (Nat.leb_spec s t); cbn [andb].
  - destruct (Nat.ltb_spec t (s + c)).
    + rewrite app_nth1 by (rewrite app_length, repeat_length; lia). rewrite app_nth2 by (rewrite repeat_length; lia). rewrite repeat_length. reflexivity.
    + rewrite app_nth2 by (rewrite app_length, repeat_length; lia). apply nth_repeat.
  - rewrite app_nth1 by (rewrite app_length, repeat_length; lia). rewrite app_nth1 by (rewrite repeat_length; lia). apply nth_repeat.
Qed.
Lemma extend_long (rsl : list O) P N c : P <> [] -> rect c P -> length rsl < c -> extend rsl false P N = Err ValueError.
Proof.
  intros NE R H. unfold extend. destruct P as [|row P']; [congruence|]. assert (L : length row = c) by (inversion R; auto). rewrite L.
  assert (D : ((Z.of_nat (length rsl) - Z.of_nat c) / 2 < 0)%Z) by (apply Z.div_lt_upper_bound; lia).
  unfold nans. destruct (Z.ltb_spec ((Z.of_nat (length rsl) - Z.of_nat c) / 2) 0); [reflexivity|lia].
Qed.

Context (S : numsem O).
Lemma power_out (P : list (list O)) n c k t : c <= n -> n <= t -> power P n c k t = n_nan.
Proof.
  intros H Ht. unfold power, centred. destruct (Nat.leb_spec ((n - c) / 2) t); cbn [andb]; auto. destruct (Nat.ltb_spec t ((n - c) / 2 + c)); auto.
  pose proof (Nat.div_le_upper_bound (n - c) 2 (n - c) ltac:(lia) ltac:(lia)). lia.
Qed.
Lemma filter_nil {A} (g : A -> bool) l : (forall x, In x l -> g x = false) -> filter g l = [].
Proof. induction l as [|x l IH]; intros H; cbn; auto. rewrite (H x) by (left; auto). apply IH. intros y Hy. apply H. right; auto. Qed.
Lemma slice_map_seq {A} (g : nat -> A) n a b : b <= n -> slice a b (map g (seq 0 n)) = map g (seq a (b - a)).
Proof.
  intros H. apply (get_ext (g 0)); [rewrite slice_length, map_length, seq_length; auto; rewrite map_length, seq_length; auto|].
  intros i Hi. rewrite slice_length in Hi by (rewrite map_length, seq_length; auto). rewrite get_slice by auto.
  rewrite get_map_seq by lia. rewrite (get_map g 0) by (rewrite seq_length; lia). unfold get. rewrite seq_nth by lia. reflexivity.
Qed.
Lemma dry_ok (P : list (list O)) n c k a b : c <= n ->
  nanmean (py_slice (Z.of_nat a) (Z.of_nat b) (map (power P n c k) (seq 0 n))) = dry_level P n c a b k.
Proof.
  intros H. unfold nanmean, dry_level. f_equal. unfold py_slice. rewrite !py_bound_nat, map_length, seq_length, slice_map_seq by lia.
  destruct (le_lt_dec b n); [|destruct (le_lt_dec a n)].
  - rewrite (Nat.min_l b n) by auto. destruct (le_lt_dec a n); [rewrite (Nat.min_l a n) by auto; reflexivity|].
    replace (b - Nat.min a n) with 0 by lia. replace (b - a) with 0 by lia. reflexivity.
  - rewrite (Nat.min_l a n), (Nat.min_r b n) by lia. replace (b - a) with ((n - a) + (b - n)) by lia. rewrite seq_app, map_app, filter_app.
    rewrite (filter_nil _ (map _ (seq (a + (n - a)) _))); [rewrite app_nil_r; reflexivity|].
    intros x Hx. apply in_map_iff in Hx as (t & <- & Ht). apply in_seq in Ht. rewrite power_out by lia. rewrite (isnan_nan S). auto.
  - rewrite !Nat.min_r by lia. rewrite Nat.sub_diag. cbn [seq map filter]. symmetry. apply filter_nil.
    intros x Hx. apply in_map_iff in Hx as (t & <- & Ht). apply in_seq in Ht. rewrite power_out by lia. rewrite (isnan_nan S). auto.
Qed.
Lemma where_map (g : O -> bool) (f : list O) : where_true (map g f) = filter (fun k => g (nget f k)) (seq 0 (length f)).
Proof.
  unfold where_true. rewrite map_length. apply filter_ext_in. intros k Hk. apply in_seq in Hk. unfold nget. rewrite (get_map _ n_nan) by lia. reflexivity.
Qed.

(** ** classification of an extended spectrogram given row by row *)
Lemma classify_ok (E : list (list O)) f a b thr fd n (pw : nat -> nat -> O) :
  E <> [] -> length f = length E -> (forall k, k < length E -> get [] E k = map (pw k) (seq 0 n)) ->
  let lvl k := nanmean (py_slice a b (map (pw k) (seq 0 n))) in
  let bm sel t := n_mean (map (fun k => n_div (pw k t) (lvl k)) (filter (fun k => sel (nget f k)) (seq 0 (length f)))) in
  let sc t := n_sub (bm (fun x => n_leb x fd) t) (bm (fun x => n_ltb fd x) t) in
  exists r, classify E f a b thr fd = Ok r /\ length (r_wet r) = n /\ length (r_P_sum_diff r) = n /\
    r_Pxx r = E /\ r_f r = f /\ (forall k, k < length E -> nget (r_P_dry_mean r) k = lvl k) /\
    forall t, t < n -> val S (nget (r_P_sum_diff r) t) = val S (sc t) /\ get false (r_wet r) t = n_ltb thr (sc t).
Proof.
  intros NE Lf HE lvl bm sc. unfold classify.
  assert (Lpos : 0 < length E) by (destruct E; [congruence|cbn; lia]).
  assert (C : length (get [] E 0) = n) by (rewrite HE, map_length, seq_length; auto). rewrite C.
  set (M := map (fun row => nanmean (py_slice a b row)) E). set (PN := map2 (fun row m => map (fun x => n_div x m) row) E M).
  assert (LM : length M = length E) by (unfold M; rewrite map_length; auto).
  assert (EM : forall k, k < length E -> nget M k = lvl k). { intros k Hk. unfold nget, M. rewrite (get_map _ []), HE by auto. reflexivity. }
  assert (LP : length PN = length E) by (unfold PN; rewrite map2_length; auto).
  assert (EP : forall k t, k < length E -> t < n -> nget (get [] PN k) t = n_div (pw k t) (lvl k)).
  { intros k t Hk Ht. unfold PN. rewrite (get_map2 _ [] n_nan) by lia. fold (nget M k). rewrite EM, HE by auto.
    unfold nget. rewrite (get_map _ n_nan) by (rewrite map_length, seq_length; auto). rewrite get_map_seq by auto. reflexivity. }
  assert (RM : forall sel, rows_mean PN n (where_true (map sel f)) = Ok (map (bm sel) (seq 0 n))).
  { intros sel. unfold rows_mean. rewrite where_map.
    assert (X : existsb (fun i => length PN <=? i) (filter (fun k => sel (nget f k)) (seq 0 (length f))) = false).
    { apply not_true_is_false. intros X. apply existsb_exists in X as (i & Hi & X). apply filter_In in Hi as [Hi _]. apply in_seq in Hi. apply Nat.leb_le in X. lia. }
    rewrite X. f_equal. apply map_ext_in. intros t Ht. apply in_seq in Ht. unfold bm. f_equal. apply map_ext_in. intros k Hk. apply filter_In in Hk as [Hk _]. apply in_seq in Hk. apply EP; lia. }
  change (get [] [where_true (map (fun x : O => n_leb x fd) f)] 0) with (where_true (map (fun x : O => n_leb x fd) f)).
  change (get [] [where_true (map (fun x : O => n_ltb fd x) f)] 0) with (where_true (map (fun x : O => n_ltb fd x) f)).
  rewrite !RM. cbn [bind]. cbn [length]. change (Z.of_nat 1) with 1%Z.
  set (D := map2 _ (map (bm (fun x => n_leb x fd)) (seq 0 n)) (map (bm (fun x => n_ltb fd x)) (seq 0 n))).
  assert (LD : length D = n) by (unfold D; rewrite map2_length; rewrite !map_length, ?seq_length; auto).
  assert (ED : forall t, t < n -> nget D t = n_sub (n_div (bm (fun x => n_leb x fd) t) (n_ofZ 1)) (n_div (bm (fun x => n_ltb fd x) t) (n_ofZ 1))).
  { intros t Ht. unfold nget, D. rewrite (get_map2 _ n_nan n_nan) by (rewrite ?map_length, ?seq_length; lia). rewrite !get_map_seq by lia. reflexivity. }
  assert (VD : forall t, t < n -> val S (nget D t) = val S (sc t)).
  { intros t Ht. rewrite ED by auto. unfold sc. rewrite !(val_sub _ S), !(div_one S). reflexivity. }
  eexists; split; [reflexivity|]. cbn [r_wet r_P_sum_diff r_Pxx r_f r_P_dry_mean]. rewrite map_length. do 5 (split; [solve [auto]|]).
  intros t Ht. split; auto. rewrite (get_map _ n_nan) by lia. fold (nget D t).
  rewrite !(val_ltb _ S), (val_isnan _ S), VD by auto. destruct (xisnan (val S (sc t))) eqn:X; auto. rewrite xltb_nan_r; auto.
Qed.

Lemma uses_spec (env : stft_env O) rsl wl window Pxx fo P f : uses env rsl wl window Pxx fo P f ->
  exists N, spectrogram env rsl wl false window Pxx fo = Ok (P, f, N).
Proof.
  intros [[-> ->]|[-> E]]; cbn [spectrogram]; eauto. cbv zeta.
  assert (E' : specg env rsl wl match window with None => hamming env wl | Some w => w end = Ok (P, f)) by (destruct window; exact E).
  rewrite E'. cbn [bind fst snd]. eauto.
Qed.

Theorem stft_correct (env : stft_env O) rsl wl thr fd (a b : nat) window Pxx fo P f c :
  uses env rsl wl window Pxx fo P f -> P <> [] -> rect c P -> length f = length P -> c <= length rsl ->
  let n := length rsl in
  let score t := n_sub (band P f n c a b (fun x => n_leb x fd) t) (band P f n c a b (fun x => n_ltb fd x) t) in
  exists r, stft_classification env rsl wl thr fd (Some (Z.of_nat a)) (Some (Z.of_nat b)) None false window Pxx fo = Ok r /\
    length (r_wet r) = n /\ length (r_P_sum_diff r) = n /\
    forall t, t < n -> val S (nget (r_P_sum_diff r) t) = val S (score t) /\ get false (r_wet r) t = n_ltb thr (score t).
Proof.
  intros U NE R Lf H n score. destruct (uses_spec _ _ _ _ _ _ _ _ U) as [N E]. unfold stft_classification. rewrite E. cbn [bind fst snd].
  destruct (extend_ok rsl P N c NE R H) as (X & EX & LX & HX). rewrite EX. cbn [bind dry_period fst snd].
  destruct (classify_ok X f (Z.of_nat a) (Z.of_nat b) thr fd n (power P n c)) as (r & Er & L1 & L2 & _ & _ & _ & Ht).
  - intros ->. destruct P; [congruence|discriminate].
  - lia.
  - intros k Hk. apply HX. lia.
  - exists r. split; [exact Er|]. split; auto. split; auto. intros t Hlt. destruct (Ht t Hlt) as [V W].
    assert (B : forall sel, n_mean (map (fun k => n_div (power P n c k t) (nanmean (py_slice (Z.of_nat a) (Z.of_nat b) (map (power P n c k) (seq 0 n))))) (filter (fun k => sel (nget f k)) (seq 0 (length f)))) = band P f n c a b sel t).
    { intros sel. unfold band. f_equal. apply map_ext. intros k. rewrite dry_ok by auto. reflexivity. }
    rewrite (B (fun x => n_ltb fd x)), (B (fun x => n_leb x fd)) in V, W. auto.
Qed.

(** no spectrum, no rain *)
Theorem stft_missing (env : stft_env O) rsl wl thr fd (a b : nat) window Pxx fo P f c t :
  uses env rsl wl window Pxx fo P f -> P <> [] -> rect c P -> length f = length P -> c <= length rsl ->
  t < length rsl -> t < (length rsl - c) / 2 \/ (length rsl - c) / 2 + c <= t ->
  exists r, stft_classification env rsl wl thr fd (Some (Z.of_nat a)) (Some (Z.of_nat b)) None false window Pxx fo = Ok r /\
    n_isnan (nget (r_P_sum_diff r) t) = true /\ get false (r_wet r) t = false.
Proof.
  intros U NE R Lf H Ht Hm. destruct (stft_correct env rsl wl thr fd a b window Pxx fo P f c U NE R Lf H) as (r & Er & _ & _ & Hr).
  exists r. split; auto. destruct (Hr t Ht) as [V W].
  assert (N : n_isnan (n_sub (band P f (length rsl) c a b (fun x => n_leb x fd) t) (band P f (length rsl) c a b (fun x => n_ltb fd x) t)) = true).
  { apply (sub_nan_l S). unfold band. apply (mean_all_nan S). intros x Hx. apply in_map_iff in Hx as (k & <- & _). apply (div_nan_l S).
    unfold power, centred. destruct (Nat.leb_spec ((length rsl - c) / 2) t); cbn [andb]; [|apply (isnan_nan S)]. destruct (Nat.ltb_spec t ((length rsl - c) / 2 + c)); [lia|apply (isnan_nan S)]. }
  split; [|rewrite W; apply (ltb_nan_r S); auto]. rewrite (val_isnan _ S), V, <- (val_isnan _ S). exact N.
Qed.
End P.
