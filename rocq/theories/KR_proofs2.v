From Coq Require Import List ZArith Bool String Lia Arith.
From Verif Require Import Base Num NumF64 NumList NpOps Libm RealSpec Itu_table KR_model KR_spec KR_proofs.
Import ListNotations.
Local Open Scope nat_scope.
Local Notation length := List.length.

(** ** arrays of coefficients *)
Section Multi.
Context {O : numops} (S : numsem O) (L : libm O).

Definition usable (x : O) : bool := negb (n_isnan x) && n_leb (n_ofZ 0) x.

Lemma where_true_all mask : (forall i, i < length mask -> get false mask i = true) ->
  where_true mask = seq 0 (length mask).
Proof.
  intros H. unfold where_true.
  assert (G : forall l, (forall i, In i l -> get false mask i = true) -> filter (fun i => get false mask i) l = l).
  { induction l; simpl; intros H1; auto. rewrite H1 by auto. f_equal. apply IHl. intros; apply H1; auto. }
  apply G. intros i Hi. apply in_seq in Hi. apply H; lia.
Qed.

Lemma where_true_some mask i : i < length mask -> get false mask i = false ->
  length (where_true mask) < length mask.
Proof.
  intros Hi E. unfold where_true.
  assert (G : forall l, In i l -> length (filter (fun k => get false mask k) l) < length l).
  { induction l as [|k l IH]; intros [].
    - subst. simpl. rewrite E. clear. pose proof (filter_length_bound (fun k => get false mask k) l). lia.
    - simpl. specialize (IH H). destruct (get false mask k); simpl; lia. }
  rewrite <- (seq_length (length mask) 0) at 2. apply G. apply in_seq; lia.
Qed.

Lemma map_get_seq {A} (d : A) l : map (get d l) (seq 0 (length l)) = l.
Proof.
  apply get_ext with d; [rewrite map_length, seq_length; auto|].
  rewrite map_length, seq_length. intros i Hi. rewrite get_map_seq by auto. auto.
Qed.

Lemma scatter_all {A} (d : A) (vals a : list A) : length vals = length a -> scatter (seq 0 (length a)) vals a = vals.
Proof.
  intros E. apply get_ext with d; [rewrite scatter_length; auto|].
  rewrite scatter_length. intros i Hi.
  assert (Ei : get 0 (seq 0 (length a)) i = i) by (unfold get; rewrite seq_nth by auto; auto).
  rewrite <- Ei at 1.
  apply scatter_in; rewrite ?seq_length; auto.
  - apply seq_NoDup.
  - intros j Hj. apply in_seq in Hj. lia.
Qed.

Definition amask (A : list O) := map2 (fun (n : bool) x => negb n && n_leb zero x) (map n_isnan A) A.

Lemma amask_length A : length (amask A) = length A.
Proof. unfold amask. rewrite map2_length; rewrite map_length; auto. Qed.

Lemma amask_get A i : i < length A -> get false (amask A) i = usable (get n_nan A i).
Proof.
  intros. unfold amask. rewrite get_map2 with (da := false) (db := n_nan) by (rewrite ?map_length; auto).
  rewrite get_map with (d := n_nan) by auto. reflexivity.
Qed.

Lemma power_law_mismatch A L_km (a b : list O) R_min :
  1 < length a -> length b = length a -> length (where_true (amask A)) <> length a ->
  power_law L A L_km (CArr a) (CArr b) R_min = Err ValueError.
Proof.
  intros N Eb NE. unfold power_law. fold (amask A). cbn [coef_list coef_inv].
  unfold bcast2 at 1. rewrite mask_select_length, map_length.
  destruct (Nat.eqb_spec (length (where_true (amask A))) (length a)) as [E|_]; [contradiction|].
  assert (LS : length (mask_select n_nan (amask A) A) = length (where_true (amask A))) by apply mask_select_length.
  destruct (mask_select n_nan (amask A) A) as [|x [|x' t]] eqn:EM.
  - destruct a as [|a0 [|a1 a]]; simpl in N; try lia. reflexivity.
  - cbn [bind]. unfold bcast2. rewrite !map_length, Eb, Nat.eqb_refl. cbn [bind].
    unfold mask_assign. rewrite map2_length by (rewrite !map_length; auto). rewrite !map_length.
    simpl in LS. rewrite <- LS. destruct (Nat.eqb_spec (length a) 1); [lia|].
    set (l := map2 _ _ _).
    assert (LL : length l = length a) by (unfold l; rewrite map2_length; rewrite !map_length; auto).
    destruct l as [|l0 [|l1 l]]; simpl in LL; try lia; reflexivity.
  - destruct a as [|a0 [|a1 a]]; simpl in N; try lia. reflexivity.
Qed.

Lemma power_law_all A L_km (a b : list O) R_min :
  length a = length A -> length b = length A ->
  (forall i, i < length A -> usable (get n_nan A i) = true) ->
  exists R, power_law L A L_km (CArr a) (CArr b) R_min = Ok R /\ length R = length A /\
    forall i, i < length A ->
      get n_nan R i = rate L (n_mul (get n_nan a i) L_km) (n_div one (get n_nan b i)) R_min (get n_nan A i).
Proof.
  intros Ea Eb HU. unfold power_law. fold (amask A). cbn [coef_list coef_inv].
  assert (EW : where_true (amask A) = seq 0 (length A)).
  { rewrite where_true_all; rewrite amask_length; auto. intros. rewrite amask_get; auto. }
  assert (ES : mask_select n_nan (amask A) A = A).
  { unfold mask_select. rewrite EW. apply map_get_seq. }
  rewrite ES. unfold bcast2 at 1. rewrite map_length, Ea, Nat.eqb_refl. cbn [bind].
  set (q := map2 n_div A (map (fun x => n_mul x L_km) a)).
  assert (Lq : length q = length A) by (unfold q; rewrite map2_length; rewrite ?map_length; auto).
  unfold bcast2. rewrite Lq, map_length, Eb, Nat.eqb_refl. cbn [bind].
  set (p := map2 (m_pow L) q (map (n_div one) b)).
  assert (Lp : length p = length A) by (unfold p; rewrite map2_length; rewrite ?map_length; lia).
  unfold mask_assign. rewrite EW, seq_length, Lp, Nat.eqb_refl. cbn [bind].
  set (R0 := mask_fill (map n_isnan A) n_nan (repeat zero (length A))).
  assert (L0 : length R0 = length A) by (unfold R0; rewrite mask_fill_length; rewrite ?map_length, repeat_length; auto).
  assert (SC : scatter (seq 0 (length A)) p R0 = p) by (rewrite <- L0; apply (scatter_all n_nan); lia).
  rewrite SC.
  eexists; split; [reflexivity|].
  assert (LX : length (map2 (fun (n : bool) r => negb n && n_ltb r R_min) (map n_isnan A) p) = length A)
    by (rewrite map2_length; rewrite map_length; lia).
  rewrite mask_fill_length by lia. split; auto. intros i Hi.
  rewrite mask_fill_get by lia. rewrite get_map2 with (da := false) (db := n_nan) by (rewrite ?map_length; lia).
  rewrite get_map with (d := n_nan) by auto.
  assert (Gp : get n_nan p i = m_pow L (n_div (get n_nan A i) (n_mul (get n_nan a i) L_km)) (n_div one (get n_nan b i))).
  { unfold p. rewrite get_map2 with (da := n_nan) (db := n_nan) by (rewrite ?map_length; lia).
    rewrite get_map with (d := n_nan) by lia. f_equal.
    unfold q. rewrite get_map2 with (da := n_nan) (db := n_nan) by (rewrite ?map_length; lia).
    rewrite get_map with (d := n_nan) by lia. reflexivity. }
  rewrite Gp. unfold rate. specialize (HU i Hi). unfold usable in HU. apply andb_prop in HU as [U1 U2].
  apply negb_true_iff in U1. rewrite U1. unfold zero. rewrite U2. reflexivity.
Qed.

Variable cubic : list O -> list O -> O -> O.

Lemma a_b_lengths f pol ap a b : a_b cubic f (PolArr pol) ap = Ok (a, b) ->
  length a = length f /\ length b = length f.
Proof.
  intros E.
  unfold a_b in E. destruct (Nat.eqb (length f) (length pol)) eqn:EL; [|discriminate]. apply Nat.eqb_eq in EL.
  cbn [negb] in E.
  repeat match type of E with
  | bind ?m _ = Ok _ => let H := fresh "H" in destruct m eqn:H; [cbn [bind] in E|discriminate]
  | (if ?c then _ else _) = Ok _ => destruct c; [discriminate|]
  end.
  injection E as <- <-.
  unfold mask_assign in *. rewrite !mask_select_length, !Nat.eqb_refl in *.
  repeat match goal with H : Ok _ = Ok _ |- _ => injection H as <- end.
  rewrite !scatter_length, repeat_length. auto.
Qed.

Lemma calc_multi_raises A L_km f pol ap R_min :
  1 < length f -> length A = length f ->
  (exists i, i < length A /\ usable (get n_nan A i) = false) ->
  calc_R_from_A L cubic A L_km (Some f) (Some (PolArr pol)) None None ap R_min = Err ValueError.
Proof.
  intros N EA (i & Hi & U). unfold calc_R_from_A.
  destruct (a_b cubic f (PolArr pol) ap) as [[a b]|e] eqn:E.
  - cbn [bind fst snd].
    pose proof (a_b_lengths f pol ap a b E) as LL.
    destruct LL as [La Lb]. apply power_law_mismatch; try lia.
    assert (length (where_true (amask A)) < length (amask A)).
    { apply where_true_some with i; rewrite ?amask_length; auto. rewrite amask_get; auto. }
    rewrite amask_length in H. lia.
  - cbn [bind].
    assert (e = ValueError); [|subst; auto].
    unfold a_b in E. destruct (Nat.eqb (length f) (length pol)) eqn:EL; [|cbn [negb] in E; congruence].
    cbn [negb] in E.
    destruct f as [|x f]; [simpl in N; lia|]. cbn [np_min np_max bind] in E.
    unfold interp1d_cubic in E.
    repeat match type of E with
      | (if ?c then _ else _) = Err _ => destruct c; try congruence
      | bind (if ?c then _ else _) _ = Err _ => destruct c; cbn [bind] in E; try congruence
      | bind (Ok _) _ = Err _ => cbn [bind] in E
      | bind (mask_assign _ (mask_select _ _ _) _) _ = Err _ =>
          unfold mask_assign at 1 in E; rewrite mask_select_length, Nat.eqb_refl in E
      | Ok _ = Err _ => discriminate
      end.
Qed.

Lemma calc_multi_ok A L_km f pol ap R_min a b :
  length A = length f -> a_b cubic f (PolArr pol) ap = Ok (a, b) -> length a = length f -> length b = length f ->
  (forall i, i < length A -> usable (get n_nan A i) = true) ->
  exists R, calc_R_from_A L cubic A L_km (Some f) (Some (PolArr pol)) None None ap R_min = Ok R /\
    length R = length A /\
    forall i, i < length A ->
      get n_nan R i = rate L (n_mul (get n_nan a i) L_km) (n_div one (get n_nan b i)) R_min (get n_nan A i).
Proof.
  intros EA E La Lb U. unfold calc_R_from_A. rewrite E. cbn [bind fst snd].
  apply power_law_all; auto; lia.
Qed.
End Multi.

Local Open Scope nat_scope.
Lemma calc_multi_raises64 :
  forall (L : libm F64) (cubic : list F64 -> list F64 -> F64 -> F64) (A : list F64) (L_km : F64) f pol ap (R_min : F64),
  1 < length f -> length A = length f ->
  (exists i, i < length A /\ (missing (get n_nan A i) \/ n_ltb (get n_nan A i) (n_ofZ 0) = true)) ->
  calc_R_from_A L cubic A L_km (Some f) (Some (PolArr pol)) None None ap R_min = Err ValueError.
Proof.
  intros L cubic A L_km f pol ap R_min N EA (i & Hi & H). apply calc_multi_raises; auto.
  exists i. split; auto. unfold usable. destruct H as [H|H].
  - unfold missing in H. rewrite H. reflexivity.
  - apply andb_false_iff. right. apply not_true_is_false. intros C.
    rewrite (val_ltb _ F64sem) in H. rewrite (val_leb _ F64sem) in C. pose proof (xleb_ltb_trans _ _ _ C H) as X. rewrite xltb_irrefl in X. discriminate.
Qed.

Lemma calc_multi_ok64 :
  forall (L : libm F64) (cubic : list F64 -> list F64 -> F64 -> F64) (A : list F64) (L_km : F64) f pol ap (R_min : F64) a b,
  length A = length f -> a_b cubic f (PolArr pol) ap = Ok (a, b) ->
  (forall i, i < length A -> nonneg (get n_nan A i)) ->
  exists R, calc_R_from_A L cubic A L_km (Some f) (Some (PolArr pol)) None None ap R_min = Ok R /\
    length R = length A /\
    forall i, i < length A ->
      let r := m_pow L (n_div (get n_nan A i) (n_mul (get n_nan a i) L_km)) (n_div (n_ofZ 1) (get n_nan b i)) in
      get n_nan R i = if n_ltb r R_min then n_ofZ 0 else r.
Proof.
  intros L cubic A L_km f pol ap R_min a b EA E U. destruct (a_b_lengths _ _ _ _ _ _ E) as [La Lb].
  assert (US : forall i, i < length A -> n_isnan (get n_nan A i) = false) by (intros i Hi; apply (nonneg_not_nan F64sem); auto).
  destruct (calc_multi_ok L cubic A L_km f pol ap R_min a b) as (R & ER & LR & G); auto.
  { intros i Hi. unfold usable. rewrite (US i Hi). apply U; auto. }
  exists R. split; [exact ER|]. split; [exact LR|]. intros i Hi r. rewrite (G i Hi). unfold rate. rewrite (US i Hi).
  specialize (U i Hi). unfold nonneg in U. unfold zero. rewrite U. reflexivity.
Qed.

Lemma str_pol_refuted :
  exists (f : list F64) s,
    (exists ab, a_b (fun _ ys _ => get n_nan ys 0) f (PolStr s) "ITU_2005" = Ok ab) /\
    (forall L A L_km R_min,
      calc_R_from_A L (fun _ ys _ => get (n_nan : F64) ys 0) A L_km (Some f) (Some (PolStr s)) None None "ITU_2005" R_min
      = Err ValueError).
Proof.
  exists [#20; #30], "H"%string. split.
  - destruct (ok_check (a_b (O := F64) (fun _ ys _ => get n_nan ys 0) [#20; #30] (PolStr "H") "ITU_2005") (fun _ => true)) as (ab & E & _);
      [vm_compute; reflexivity|eauto].
  - intros. apply calc_str_pol_multi. simpl. lia.
Qed.
