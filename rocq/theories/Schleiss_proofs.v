From Coq Require Import List ZArith Bool Lia Arith Reals Lra.
From Flocq Require Import Core.
From Verif Require Import Base Num NumList RealSpec Schleiss_model Schleiss_spec.
Import ListNotations.
Local Open Scope nat_scope.

Section P.
Context {O : numops} (S : numsem O).

Lemma py_min_isnan (a b : O) : n_isnan (py_min a b) = n_isnan a.
Proof.
  unfold py_min. destruct (n_ltb b a) eqn:E; auto.
  destruct (ltb_nan S _ _ E) as [-> ->]; auto.
Qed.

Lemma py_min_le_l (a b : O) : n_isnan a = false -> n_leb (py_min a b) a = true.
Proof.
  intros. unfold py_min. destruct (n_ltb b a) eqn:E; [apply (ltb_leb S); auto|apply (leb_refl S); auto].
Qed.

Lemma py_min_le_r (a b : O) : n_isnan a = false -> n_isnan b = false -> n_leb (py_min a b) b = true.
Proof.
  intros. unfold py_min. destruct (n_ltb b a) eqn:E; [apply (leb_refl S); auto|].
  apply (ltb_false_leb S); auto.
Qed.

Definition rsl_cands (A : O) (wet : bool) (m s : O) : list O := if wet then [A; m; s] else [A; m].

Definition sch_ok (rsl baseline wet : list O) (m dt tau : O) (waa : list O) (i : nat) : Prop :=
  get n_nan waa i =
    let A := atten rsl baseline i in
    if n_eqb (get n_nan wet i) (n_ofZ 1)
    then py_min (py_min A m) (relaxed (get n_nan waa (i - 1)) m dt tau)
    else py_min A m.

Lemma schleiss_loop (rsl baseline wet : list O) m dt tau :
  length baseline = length rsl -> length wet = length rsl ->
  (n_eqb tau (n_ofZ 0) = true -> forall i, 1 <= i < length rsl -> ~ flag_is_one wet i) ->
  exists waa, waa_schleiss_2013 rsl baseline wet m dt tau = Ok waa /\
    length waa = length rsl /\
    (0 < length rsl -> get n_nan waa 0 = n_ofZ 0) /\
    forall i, 1 <= i < length rsl -> sch_ok rsl baseline wet m dt tau waa i.
Proof.
  intros L1 L2 Htau. unfold waa_schleiss_2013, numba_waa_schleiss_2013.
  rewrite L1, L2, !Nat.eqb_refl. simpl andb. cbv iota.
  destruct (for_range_res_inv (fun n (waa : list O) =>
     length waa = length rsl /\ (0 < length rsl -> get n_nan waa 0 = n_ofZ 0) /\
     (forall i, 1 <= i < n -> sch_ok rsl baseline wet m dt tau waa i))
     (length rsl - 1) 1 (schleiss_body (map2 n_sub rsl baseline) wet m dt tau)
     (repeat zero (length rsl))) as (waa & E & A1 & A2 & A3).
  - split; [apply repeat_length|]. split; [|intros; lia].
    intros. unfold get. destruct (length rsl); [lia|]. reflexivity.
  - intros i waa Hi (A1 & A2 & A3). unfold schleiss_body.
    assert (EA : nget (map2 n_sub rsl baseline) i = atten rsl baseline i).
    { unfold nget. rewrite get_map2 with (da := n_nan) (db := n_nan) by lia. reflexivity. }
    rewrite EA. unfold nget at 1.
    set (v := if n_eqb (get n_nan wet i) (n_ofZ 1)
      then py_min (py_min (atten rsl baseline i) m) (relaxed (get n_nan waa (i - 1)) m dt tau)
      else py_min (atten rsl baseline i) m).
    exists (upd i v waa). split.
    + unfold v. change one with (n_ofZ 1 : O). destruct (n_eqb (get n_nan wet i) (n_ofZ 1)) eqn:Ew; auto.
      unfold waa_step. destruct (n_eqb tau zero) eqn:Et.
      * exfalso. apply (Htau Et i); [lia|]. exact Ew.
      * simpl. reflexivity.
    + split; [rewrite upd_length; auto|]. split.
      * intros. rewrite get_upd_neq by lia. auto.
      * intros j Hj. unfold sch_ok. cbv zeta. destruct (Nat.eq_dec j i).
        -- subst j. rewrite get_upd_eq by lia. rewrite get_upd_neq by lia. reflexivity.
        -- rewrite !get_upd_neq by lia. apply A3; lia.
  - exists waa. split; auto. split; auto. split; auto. intros; apply A3; lia.
Qed.

Lemma schleiss_zero_div (rsl baseline wet : list O) m dt tau :
  length baseline = length rsl -> length wet = length rsl ->
  n_eqb tau (n_ofZ 0) = true -> (exists i, 1 <= i < length rsl /\ flag_is_one wet i) ->
  waa_schleiss_2013 rsl baseline wet m dt tau = Err ZeroDivisionError.
Proof.
  intros L1 L2 Ht (i & Hi & Hw). unfold waa_schleiss_2013, numba_waa_schleiss_2013.
  rewrite L1, L2, !Nat.eqb_refl. simpl andb. cbv iota.
  generalize (repeat (zero : O) (length rsl)).
  assert (In i (seq 1 (length rsl - 1))) as HI by (apply in_seq; lia).
  revert HI. generalize (seq 1 (length rsl - 1)). induction l as [|k l IH]; intros HI w; [destruct HI|].
  simpl. destruct (schleiss_body (map2 n_sub rsl baseline) wet m dt tau k w) eqn:Eb.
  - simpl. apply IH. destruct HI as [->|]; auto. exfalso.
    unfold schleiss_body in Eb. unfold flag_is_one in Hw. unfold nget at 1 in Eb.
    change one with (n_ofZ 1 : O) in Eb. rewrite Hw in Eb.
    unfold waa_step in Eb. change zero with (n_ofZ 0 : O) in Eb. rewrite Ht in Eb. discriminate.
  - simpl. unfold schleiss_body in Eb. destruct (n_eqb (nget wet k) one); [|discriminate].
    unfold waa_step in Eb. destruct (n_eqb tau zero); simpl in Eb; congruence.
Qed.

Lemma least_of_min2 (a b : O) : n_isnan a = false -> least_of [a; b] (py_min a b).
Proof.
  intros H. split.
  - unfold py_min. destruct (n_ltb b a); simpl; auto.
  - intros c [<-|[<-|[]]] Hc; [apply py_min_le_l; auto|apply py_min_le_r; auto].
Qed.

Lemma least_of_min3 (a b c : O) : n_isnan a = false -> least_of [a; b; c] (py_min (py_min a b) c).
Proof.
  intros H. assert (H2 : n_isnan (py_min a b) = false) by (rewrite py_min_isnan; auto). split.
  - unfold py_min. destruct (n_ltb b a), (n_ltb c _); simpl; auto.
  - intros d [<-|[<-|[<-|[]]]] Hd.
    + eapply (leb_trans S); [apply py_min_le_l; auto|apply py_min_le_l; auto].
    + eapply (leb_trans S); [apply py_min_le_l; auto|apply py_min_le_r; auto].
    + apply py_min_le_r; auto.
Qed.

Lemma schleiss_least (rsl baseline wet : list O) m dt tau :
  length baseline = length rsl -> length wet = length rsl ->
  (n_eqb tau (n_ofZ 0) = true -> forall i, 1 <= i < length rsl -> ~ flag_is_one wet i) ->
  exists waa, waa_schleiss_2013 rsl baseline wet m dt tau = Ok waa /\
    length waa = length rsl /\
    (0 < length rsl -> get n_nan waa 0 = n_ofZ 0) /\
    forall i, 1 <= i < length rsl -> n_isnan (atten rsl baseline i) = false ->
      (~ flag_is_one wet i -> least_of [atten rsl baseline i; m] (get n_nan waa i)) /\
      (flag_is_one wet i ->
        least_of [atten rsl baseline i; m; relaxed (get n_nan waa (i - 1)) m dt tau] (get n_nan waa i)).
Proof.
  intros L1 L2 Ht. destruct (schleiss_loop rsl baseline wet m dt tau L1 L2 Ht) as (waa & E & A & B & C).
  exists waa. split; [auto|split; [auto|split; [auto|]]]. intros i Hi HA. split; intros Hw; rewrite (C i) by auto; cbv zeta; unfold flag_is_one in Hw.
  - apply not_true_is_false in Hw. rewrite Hw. apply least_of_min2; auto.
  - rewrite Hw. apply least_of_min3; auto.
Qed.

Lemma schleiss_nan (rsl baseline wet : list O) m dt tau waa :
  length baseline = length rsl -> length wet = length rsl ->
  waa_schleiss_2013 rsl baseline wet m dt tau = Ok waa ->
  forall i, 1 <= i < length rsl ->
    (n_isnan (get n_nan waa i) = true <->
     n_isnan (n_sub (get n_nan rsl i) (get n_nan baseline i)) = true).
Proof.
  intros L1 L2 E i Hi.
  assert (Ht : n_eqb tau (n_ofZ 0) = true -> forall i, 1 <= i < length rsl -> ~ flag_is_one wet i).
  { intros Ht j Hj Hw. rewrite (schleiss_zero_div rsl baseline wet m dt tau) in E; eauto. discriminate. }
  destruct (schleiss_loop rsl baseline wet m dt tau L1 L2 Ht) as (waa' & E' & A & B & C).
  rewrite E in E'. injection E' as <-. rewrite (C i Hi). cbv zeta.
  fold (atten rsl baseline i). destruct (n_eqb (get n_nan wet i) (n_ofZ 1)). all: rewrite !py_min_isnan; reflexivity.
Qed.
End P.

(** ** exact arithmetic *)
Local Open Scope R_scope.

Lemma xr_relaxed w m dt tau : tau <> 0 ->
  relaxed (O := XR) (XFin w) (XFin m) (XFin dt) (XFin tau) = XFin (w + (m - w) * (3 * dt / tau)).
Proof.
  intros Ht. unfold relaxed, n_add, n_div, n_mul, n_sub, n_ofZ. cbn [XR].
  simpl. rewrite Req_bool_false by auto. f_equal. field; auto.
Qed.

Lemma schleiss_exp (rsl baseline wet : list R) m dt tau waa i k :
  length baseline = length rsl -> length wet = length rsl -> tau <> 0 ->
  0 <= 3 * dt / tau <= 1 ->
  waa_schleiss_2013 (ofR rsl) (ofR baseline) (ofR wet) (XFin m : XR) (XFin dt : XR) (XFin tau : XR) = Ok waa ->
  (i + k < length rsl)%nat ->
  (forall j, (i < j <= i + k)%nat -> rget wet j = 1 /\ m <= rget rsl j - rget baseline j) ->
  forall w0, xat waa i = XFin w0 -> w0 <= m ->
  xat waa (i + k) = XFin (m - (m - w0) * (1 - 3 * dt / tau) ^ k).
Proof.
  intros L1 L2 Htau Hq E. set (q := 3 * dt / tau) in *.
  destruct (schleiss_loop (ofR rsl) (ofR baseline) (ofR wet) (XFin m : XR) (XFin dt : XR) (XFin tau : XR))
    as (waa' & E' & A & B & C).
  { rewrite !ofR_length; auto. } { rewrite !ofR_length; auto. }
  { simpl. rewrite Req_bool_false by auto. discriminate. }
  rewrite E in E'. injection E' as <-. rewrite ofR_length in *.
  intros Hk Hw w0 H0 Hle. induction k.
  - rewrite Nat.add_0_r. rewrite H0. f_equal. simpl. lra.
  - assert (IH : xat waa (i + k) = XFin (m - (m - w0) * (1 - q) ^ k)).
    { apply IHk; [lia|]. intros; apply Hw; lia. }
    destruct (Hw (i + Datatypes.S k)%nat) as [W1 W2]; [lia|].
    unfold xat in *. rewrite (C (i + Datatypes.S k)%nat) by lia. cbv zeta. unfold atten.
    rewrite !ofR_get by lia. rewrite W1.
    replace (i + Datatypes.S k - 1)%nat with (i + k)%nat by lia. rewrite IH.
    rewrite xr_relaxed by auto. fold q. simpl n_eqb. rewrite Req_bool_true by auto.
    set (u := (1 - q) ^ k).
    assert (U : 0 <= u) by (apply pow_le; lra).
    assert (P1 : 0 <= (m - w0) * u) by (apply Rmult_le_pos; lra).
    assert (P2 : 0 <= (m - w0) * u * q) by (apply Rmult_le_pos; lra).
    assert (P3 : 0 <= (m - w0) * u * (1 - q)) by (apply Rmult_le_pos; lra).
    replace (n_sub (XFin (rget rsl (i + Datatypes.S k)) : XR) (XFin (rget baseline (i + Datatypes.S k)) : XR))
      with (XFin (rget rsl (i + Datatypes.S k) - rget baseline (i + Datatypes.S k)) : XR) by reflexivity.
    set (a := rget rsl (i + Datatypes.S k) - rget baseline (i + Datatypes.S k)) in *.
    assert (Emin : py_min (XFin a : XR) (XFin m : XR) = XFin m).
    { unfold py_min. simpl n_ltb. destruct (Rlt_bool_spec m a); auto. f_equal. lra. }
    rewrite Emin. unfold py_min. simpl n_ltb.
    destruct (Rlt_bool_spec (m - (m - w0) * u + (m - (m - (m - w0) * u)) * q) m) as [Lt|Ge].
    + f_equal. simpl. fold u. ring.
    + f_equal. simpl. fold u. nra.
Qed.

Lemma schleiss_exp_mono m w0 q k : 0 <= q <= 1 -> w0 <= m ->
  m - (m - w0) * (1 - q) ^ k <= m - (m - w0) * (1 - q) ^ (Datatypes.S k) <= m.
Proof.
  intros. simpl. set (u := (1 - q) ^ k). assert (0 <= u) by (apply pow_le; lra).
  assert (0 <= (m - w0) * u) by (apply Rmult_le_pos; lra).
  assert (0 <= (m - w0) * u * q) by (apply Rmult_le_pos; lra).
  assert (0 <= (m - w0) * u * (1 - q)) by (apply Rmult_le_pos; lra). nra.
Qed.
