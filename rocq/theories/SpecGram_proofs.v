(** * Proofs about the STFT classification on matplotlib's spectrogram *)
From Coq Require Import List ZArith Bool Lia Arith Reals Lra.
From Flocq Require Import Core.
From Verif Require Import Base Num NumList NpOps RealSpec RealStat MinMax_model Stft_model Stft_spec Stft_proofs SpecGram_model SpecGram_spec.
Import ListNotations.
Local Open Scope nat_scope.

Local Notation times lam := (fun x : XR => n_mul (XFin lam : XR) x).

(** ** scaling of sums, means and quotients *)
Lemma times_nan lam : n_mul (XFin lam : XR) (n_nan : XR) = n_nan.
Proof. reflexivity. Qed.
Lemma times_fin lam r : n_mul (XFin lam : XR) (XFin r : XR) = (XFin (lam * r) : XR).
Proof. reflexivity. Qed.
Lemma reading_times lam x : reading x -> reading (times lam x).
Proof. intros [->|[r ->]]; [left; reflexivity|right; eexists; reflexivity]. Qed.
Lemma isnan_times lam x : reading x -> n_isnan (times lam x) = n_isnan x.
Proof. intros [->|[r ->]]; reflexivity. Qed.

Lemma map_scaled_R lam (l : list R) : map (times lam) (ofR l) = ofR (map (Rmult lam) l).
Proof. unfold ofR. rewrite !map_map. reflexivity. Qed.
Lemma rsum_scaled lam l : rsum (map (Rmult lam) l) = (lam * rsum l)%R.
Proof. induction l; cbn; [ring|]. fold (rsum (map (Rmult lam) l)) (rsum l). rewrite IHl. ring. Qed.
Lemma rmean_scaled lam l : rmean (map (Rmult lam) l) = (lam * rmean l)%R.
Proof. unfold rmean. rewrite rsum_scaled, map_length. unfold Rdiv. ring. Qed.

(** the numbers of a list of readings *)
Lemma present_R (l : list XR) : (forall x, In x l -> reading x) -> exists rs, filter (fun x => negb (n_isnan x)) l = ofR rs.
Proof.
  intros H. apply finite_ofR. intros x Hx. apply filter_In in Hx as [Hx N]. apply negb_true_iff in N. split; auto.
  destruct (H x Hx) as [->|[r ->]]; [discriminate N|reflexivity].
Qed.
Lemma present_scaled lam (l : list XR) : (forall x, In x l -> reading x) ->
  filter (fun x => negb (n_isnan x)) (map (times lam) l) = map (times lam) (filter (fun x => negb (n_isnan x)) l).
Proof.
  induction l as [|x l IH]; intros H; [reflexivity|]. cbn [map filter]. rewrite (isnan_times lam x) by (apply H; left; auto).
  destruct (n_isnan x); cbn [negb map]; rewrite IH by (intros; apply H; right; auto); reflexivity.
Qed.
Lemma mean_empty : n_mean ([] : list XR) = (n_nan : XR).
Proof. unfold n_mean, n_sum. cbn. rewrite Req_bool_true, Rcompare_Eq by lra. reflexivity. Qed.
Lemma mean_scaled lam (rs : list R) : n_mean (map (times lam) (ofR rs)) = times lam (n_mean (ofR rs)).
Proof.
  destruct rs as [|r rs]; [cbn [ofR map]; rewrite mean_empty; reflexivity|].
  rewrite map_scaled_R, !n_mean_ofR by discriminate. rewrite rmean_scaled. reflexivity.
Qed.
Lemma nanmean_scaled lam (l : list XR) : (forall x, In x l -> reading x) -> nanmean (map (times lam) l) = times lam (nanmean l).
Proof. intros H. unfold nanmean. rewrite present_scaled by auto. destruct (present_R l H) as [rs ->]. apply mean_scaled. Qed.
Lemma nanmean_reading (l : list XR) : (forall x, In x l -> reading x) -> reading (nanmean l).
Proof.
  intros H. unfold nanmean. destruct (present_R l H) as [rs ->]. destruct rs as [|r rs]; [left; apply mean_empty|].
  rewrite n_mean_ofR by discriminate. right; eauto.
Qed.

Lemma div_scaled lam (x y : XR) : (0 < lam)%R -> reading x -> reading y -> n_div (times lam x) (times lam y) = n_div x y.
Proof.
  intros L [->|[a ->]]; [reflexivity|]. intros [->|[b ->]]; [reflexivity|]. rewrite !times_fin. cbn [n_div XR xdiv].
  destruct (Req_bool_spec b 0) as [->|B].
  - rewrite Rmult_0_r, Req_bool_true by auto. destruct (Rcompare_spec a 0) as [Ha|Ha|Ha].
    + rewrite Rcompare_Lt by nra. reflexivity.
    + subst. rewrite Rcompare_Eq by lra. reflexivity.
    + rewrite Rcompare_Gt by nra. reflexivity.
  - rewrite Req_bool_false by nra. f_equal. field. split; lra.
Qed.

(** ** classification of a scaled spectrogram *)
Lemma in_slice {A} s e (l : list A) x : In x (slice s e l) -> In x l.
Proof.
  unfold slice. intros H. rewrite <- (firstn_skipn s l). apply in_or_app. right.
  rewrite <- (firstn_skipn (e - s) (skipn s l)). apply in_or_app. auto.
Qed.
Lemma slice_map {A B} (g : A -> B) s e l : slice s e (map g l) = map g (slice s e l).
Proof. unfold slice. rewrite skipn_map, firstn_map. reflexivity. Qed.
Lemma py_slice_map {A B} (g : A -> B) s e l : py_slice s e (map g l) = map g (py_slice s e l).
Proof. unfold py_slice. rewrite map_length. apply slice_map. Qed.

Definition readings (E : list (list XR)) : Prop := forall row, In row E -> forall x, In x row -> reading x.

Lemma map2_map {A B C D E} (g : C -> D -> E) (u : A -> C) (v : B -> D) l k : map2 g (map u l) (map v k) = map2 (fun a b => g (u a) (v b)) l k.
Proof. unfold map2. revert k. induction l as [|x l IH]; intros [|y k]; cbn; auto. f_equal. apply IH. Qed.
Lemma map2_diag {A B C D} (g : B -> C -> D) (u : A -> B) (v : A -> C) l : map2 g (map u l) (map v l) = map (fun a => g (u a) (v a)) l.
Proof. unfold map2. induction l as [|x l IH]; cbn; auto. f_equal. apply IH. Qed.

(** the normalised spectrogram of [classify] *)
Definition normalised (E : list (list XR)) (a b : Z) : list (list XR) :=
  map2 (fun row m => map (fun x => n_div x m) row) E (map (fun row => nanmean (py_slice a b row)) E).

Lemma normalised_scaled lam E a b : (0 < lam)%R -> readings E -> normalised (map (map (times lam)) E) a b = normalised E a b.
Proof.
  intros L R. unfold normalised. rewrite map_map. rewrite <- (map_id E) at 3. rewrite !map2_diag.
  apply map_ext_in. intros row Hr. rewrite map_map. apply map_ext_in. intros x Hx.
  assert (S : forall y, In y (py_slice a b row) -> reading y) by (intros y Hy; apply (R row Hr); unfold py_slice in Hy; eapply in_slice; eauto).
  rewrite py_slice_map, nanmean_scaled by auto. apply div_scaled; auto. apply (R row Hr x Hx). apply nanmean_reading; auto.
Qed.

Lemma get_map_nil {A B} (g : list A -> list B) l i : g [] = [] -> get [] (map g l) i = g (get [] l i).
Proof. intros G. unfold get. rewrite <- G at 1. apply map_nth. Qed.

Lemma classify_scaled lam E f f' a b thr fd fd' : (0 < lam)%R -> readings E ->
  map (fun x => n_leb x fd') f' = map (fun x => n_leb x fd) f -> map (fun x => n_ltb fd' x) f' = map (fun x => n_ltb fd x) f ->
  same_classification (classify E f a b thr fd) (classify (map (map (times lam)) E) f' a b thr fd').
Proof.
  intros L R M1 M2. unfold classify.
  fold (normalised E a b). fold (normalised (map (map (times lam)) E) a b). rewrite normalised_scaled by auto.
  rewrite M1, M2. rewrite get_map_nil by reflexivity. rewrite map_length.
  destruct (rows_mean _ _ _) as [lo|e]; [|reflexivity]. cbn [bind].
  destruct (rows_mean _ _ _) as [hi|e]; [|reflexivity]. cbn [bind same_classification r_wet r_P_sum_diff r_P_norm]. auto.
Qed.

Lemma same_refl m : same_classification m m.
Proof. destruct m; cbn; auto. Qed.
Lemma same_trans m n o : same_classification m n -> same_classification n o -> same_classification m o.
Proof. destruct m, n, o; cbn; intuition congruence. Qed.

(** padding with NaN *)
Lemma map_repeat' {A B} (g : A -> B) x n : map g (repeat x n) = repeat (g x) n.
Proof. induction n; cbn; congruence. Qed.
Lemma map_map2_app (g : XR -> XR) (A B : list (list XR)) : map (map g) (map2 (@app XR) A B) = map2 (@app XR) (map (map g) A) (map (map g) B).
Proof. unfold map2. revert B. induction A as [|x A IH]; intros [|y B]; cbn; auto. rewrite map_app. f_equal. apply IH. Qed.

Lemma extend_scaled lam (rsl rsl' : list XR) mirror P N N' : length rsl' = length rsl -> (N = None <-> N' = None) ->
  extend rsl' mirror (map (map (times lam)) P) N' = match extend rsl mirror P N with Ok E => Ok (map (map (times lam)) E) | Err e => Err e end.
Proof.
  intros L HN. unfold extend. destruct P as [|row P]; [reflexivity|]. cbn [map]. rewrite map_length, L.
  destruct mirror. { destruct N, N'; auto; exfalso; destruct HN as [H1 H2]; [discriminate (H2 eq_refl)|discriminate (H1 eq_refl)]. }
  cbn [length]. rewrite map_length. set (d := (_ - _)%Z). unfold nans.
  destruct (_ <? 0)%Z; [reflexivity|]. cbn [bind]. destruct (_ <? 0)%Z; [reflexivity|]. cbn [bind]. f_equal.
  rewrite !map_map2_app. rewrite !map_repeat', times_nan. reflexivity.
Qed.

Lemma in_combine_app (A B : list (list XR)) x row : In row (map2 (@app XR) A B) -> In x row -> (exists r, In r A /\ In x r) \/ (exists r, In r B /\ In x r).
Proof.
  unfold map2. intros H Hx. apply in_map_iff in H as ((u, v) & <- & H). apply in_app_or in Hx as [Hx|Hx].
  - left. exists u. split; auto. eapply in_combine_l; eauto.
  - right. exists v. split; auto. eapply in_combine_r; eauto.
Qed.
Lemma extend_readings (rsl : list XR) mirror P N E : readings P -> extend rsl mirror P N = Ok E -> readings E.
Proof.
  intros R. unfold extend. destruct P as [|row P]; [discriminate|]. destruct mirror; [destruct N; discriminate|].
  unfold nans. destruct (_ <? 0)%Z; [discriminate|]. cbn [bind]. destruct (_ <? 0)%Z; [discriminate|]. cbn [bind]. intros HE.
  match type of HE with Ok ?X = _ => assert (HX : X = E) by congruence end. subst E.
  assert (Q : forall m k x r, In r (repeat (repeat (n_nan : XR) m) k) -> In x r -> reading x).
  { intros m k x r Hr Hx. apply repeat_spec in Hr. subst. apply repeat_spec in Hx. left; auto. }
  intros r Hr x Hx. destruct (in_combine_app _ _ x r Hr Hx) as [(u & Hu & Hxu)|(u & Hu & Hxu)]; [|exact (Q _ _ _ _ Hu Hxu)].
  destruct (in_combine_app _ _ x u Hu Hxu) as [(w & Hw & Hxw)|(w & Hw & Hxw)]; [exact (Q _ _ _ _ Hw Hxw)|exact (R _ Hw _ Hxw)].
Qed.

(** ** calls whose spectrograms are multiples of each other *)
Lemma stft_scaled lam (env env' : stft_env XR) rsl rsl' wl wl' thr fd fd' a b d mirror window window' Pxx Pxx' fo fo' :
  (0 < lam)%R -> length rsl' = length rsl ->
  match spectrogram env rsl wl mirror window Pxx fo, spectrogram env' rsl' wl' mirror window' Pxx' fo' with
  | Ok (P, f, N), Ok (P', f', N') => readings P /\ P' = map (map (times lam)) P /\ (N = None <-> N' = None) /\
      map (fun x => n_leb x fd') f' = map (fun x => n_leb x fd) f /\ map (fun x => n_ltb fd' x) f' = map (fun x => n_ltb fd x) f
  | Err e, Err e' => e' = e
  | _, _ => False
  end ->
  dry_period env' rsl' a b d = dry_period env rsl a b d ->
  same_classification (stft_classification env rsl wl thr fd a b d mirror window Pxx fo) (stft_classification env' rsl' wl' thr fd' a b d mirror window' Pxx' fo').
Proof.
  intros L Len HS HD. unfold stft_classification.
  destruct (spectrogram env rsl wl mirror window Pxx fo) as [[[P f] N]|e]; destruct (spectrogram env' rsl' wl' mirror window' Pxx' fo') as [[[P' f'] N']|e']; try contradiction; cbn [bind fst snd]; [|exact HS].
  destruct HS as (R & -> & HN & M1 & M2). rewrite (extend_scaled lam rsl rsl' mirror P N N') by auto.
  destruct (extend rsl mirror P N) as [E|e] eqn:EE; cbn [bind]; [|reflexivity]. rewrite HD.
  destruct (dry_period env rsl a b d) as [[s t]|e]; cbn [bind fst snd]; [|reflexivity].
  apply classify_scaled; auto. eapply extend_readings; eauto.
Qed.

(** ** the power of one segment *)
Definition fsum (trig : R -> R) (N : nat) (v : list R) (k : nat) : R :=
  rsum (map (fun j => rget v j * trig (2 * PI * INR k * INR j / INR N))%R (seq 0 N)).
Definition rpower (w v : list R) (N k : nat) : R :=
  let u := map2 Rmult v w in (fsum cos N u k * fsum cos N u k + fsum sin N u k * fsum sin N u k)%R.
Definition norm2 (w : list R) : R := rsum (map (fun x => x * x)%R w).
Definition row_factor (N k : nat) : R := if doubled N k then 2%R else 1%R.
Definition rpsd (Fs : R) (w v : list R) (N k : nat) : R := (row_factor N k * rpower w v N k / Fs / norm2 w)%R.

Lemma map2_ofR_mul v w : map2 n_mul (ofR v) (ofR w) = ofR (map2 Rmult v w).
Proof. unfold map2. revert w. induction v as [|x v IH]; intros [|y w]; cbn; auto. f_equal. apply IH. Qed.
Lemma fourier_R trig N v k : length v = N -> fourier trig N (ofR v) k = (XFin (fsum trig N v k) : XR).
Proof.
  intros L. unfold fourier, fsum.
  rewrite <- n_sum_ofR. f_equal. unfold ofR at 2. rewrite map_map. apply map_ext_in. intros j Hj. apply in_seq in Hj.
  unfold nget. rewrite ofR_get by lia. reflexivity.
Qed.
Lemma norm2_R w : n_sum (map (fun x => n_mul x x) (ofR w)) = (XFin (norm2 w) : XR).
Proof. unfold norm2. rewrite <- n_sum_ofR. f_equal. unfold ofR. rewrite !map_map. reflexivity. Qed.
Lemma norm2_pos w : (exists v, In v w /\ v <> 0%R) -> (0 < norm2 w)%R.
Proof.
  unfold norm2. intros (v & Hv & N). induction w as [|x w IH]; [destruct Hv|]. cbn. fold (rsum (map (fun x => x * x)%R w)).
  assert (Q : forall l, (0 <= rsum (map (fun x => x * x)%R l))%R). { induction l; cbn; [lra|]. fold (rsum (map (fun x => x * x)%R l)). nra. }
  destruct Hv as [->|Hv]; [specialize (Q w); nra|]. specialize (IH Hv). nra.
Qed.

Lemma psd_R Fs w v N k : (0 < Fs)%R -> (0 < norm2 w)%R -> length v = N -> length w = N ->
  psd Fs (ofR w) (ofR v) N k = (XFin (rpsd Fs w v N k) : XR).
Proof.
  intros HF HW Lv Lw. unfold psd. rewrite map2_ofR_mul, norm2_R, !fourier_R by (rewrite map2_length; lia).
  assert (D : forall a b, b <> 0%R -> n_div (XFin a : XR) (XFin b : XR) = (XFin (a / b) : XR)).
  { intros a b B. cbn. rewrite Req_bool_false by auto. reflexivity. }
  change (n_add (n_mul (XFin ?a : XR) (XFin ?b : XR)) (n_mul (XFin ?c : XR) (XFin ?d : XR))) with (XFin (a * b + c * d) : XR).
  unfold rpsd, row_factor, rpower. destruct (doubled N k).
  - change (n_mul (XFin ?a : XR) (n_ofZ 2)) with (XFin (a * 2) : XR). rewrite !D by lra. f_equal. unfold Rdiv. ring.
  - rewrite !D by lra. f_equal. unfold Rdiv. ring.
Qed.
Lemma rpsd_nonneg Fs w v N k : (0 < Fs)%R -> (0 < norm2 w)%R -> (0 <= rpsd Fs w v N k)%R.
Proof.
  intros HF HW. unfold rpsd. assert (0 < / Fs)%R by (apply Rinv_0_lt_compat; auto). assert (0 < / norm2 w)%R by (apply Rinv_0_lt_compat; auto).
  unfold Rdiv. apply Rmult_le_pos; [|lra]. apply Rmult_le_pos; [|lra]. apply Rmult_le_pos; [unfold row_factor; destruct (doubled N k); lra|]. unfold rpower. nra.
Qed.

(** one missing sample makes the power missing *)
Lemma psd_nan Fs window v N k j : length v = N -> length window = N -> j < N -> nget v j = (n_nan : XR) -> psd Fs window v N k = (n_nan : XR).
Proof.
  intros Lv Lw Hj E. apply Nat.lt_le_incl in Hj as Hj'.
  assert (Fn : forall trig, n_isnan (fourier trig N (map2 n_mul v window) k) = true).
  { intros trig. unfold fourier. apply (sum_nan XRsem) with (x := n_mul (nget (map2 n_mul v window) j) (XFin (trig (2 * PI * INR k * INR j / INR N)%R) : XR)).
    - apply in_map_iff. exists j. split; auto. apply in_seq. lia.
    - unfold nget. rewrite (get_map2 _ (n_nan : XR) (n_nan : XR)) by lia. fold (nget v j). rewrite E. reflexivity. }
  unfold psd. pose proof (Fn cos) as F1. destruct (fourier cos N (map2 n_mul v window) k); try discriminate F1.
  destruct (doubled N k); reflexivity.
Qed.
