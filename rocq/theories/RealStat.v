(** * Sums, means, minima and maxima of arrays *)
From Coq Require Import List ZArith Bool Reals Lra Lia Arith.
From Flocq Require Import Core.Raux.
From Verif Require Import Base Num NumList NpOps RealSpec.
Import ListNotations.

Definition rsum (l : list R) : R := fold_right Rplus 0%R l.
Definition rmean (l : list R) : R := (rsum l / INR (length l))%R.

Lemma rsum_app a b : rsum (a ++ b) = (rsum a + rsum b)%R.
Proof. induction a; simpl; [lra|]. rewrite IHa. lra. Qed.

Lemma rsum_bounds l lo hi : (forall x, In x l -> (lo <= x <= hi)%R) ->
  (lo * INR (length l) <= rsum l <= hi * INR (length l))%R.
Proof.
  induction l; intros H; [simpl; lra|]. cbn [rsum fold_right List.length]. fold (rsum l). rewrite S_INR.
  pose proof (H a (or_introl eq_refl)). assert (forall x, In x l -> (lo <= x <= hi)%R) by (intros; apply H; right; auto).
  specialize (IHl H1). lra.
Qed.

Lemma rmean_bounds l lo hi : l <> [] -> (forall x, In x l -> (lo <= x <= hi)%R) -> (lo <= rmean l <= hi)%R.
Proof.
  intros Hn H. pose proof (rsum_bounds l lo hi H). unfold rmean.
  assert (0 < INR (length l))%R by (apply lt_0_INR; destruct l; simpl; [congruence|lia]).
  split.
  - apply Rmult_le_reg_r with (INR (length l)); auto. unfold Rdiv. rewrite Rmult_assoc, Rinv_l by lra. lra.
  - apply Rmult_le_reg_r with (INR (length l)); auto. unfold Rdiv. rewrite Rmult_assoc, Rinv_l by lra. lra.
Qed.

Lemma n_sum_ofR_from l a : fold_left n_add (ofR l) (XFin a : XR) = (XFin (a + rsum l) : XR).
Proof.
  revert a. induction l as [|x l IH]; intros a; [cbn; f_equal; ring|].
  cbn [ofR map fold_left]. fold (ofR l). change (n_add (XFin a : XR) (XFin x : XR)) with (XFin (a + x) : XR).
  rewrite IH. cbn [rsum fold_right]. fold (rsum l). apply f_equal. ring.
Qed.

Lemma n_sum_ofR l : n_sum (ofR l) = (XFin (rsum l) : XR).
Proof. unfold n_sum. change (zero : XR) with (XFin 0 : XR). rewrite n_sum_ofR_from. apply f_equal. ring. Qed.

Lemma n_mean_ofR l : l <> [] -> n_mean (ofR l) = (XFin (rmean l) : XR).
Proof.
  intros H. unfold n_mean. rewrite n_sum_ofR, ofR_length.
  change (n_div (XFin (rsum l) : XR) (n_ofZ (Z.of_nat (length l))))
    with (xdiv (XFin (rsum l)) (XFin (IZR (Z.of_nat (length l)))) : XR).
  assert (0 < INR (length l))%R by (apply lt_0_INR; destruct l; simpl; [congruence|lia]).
  rewrite <- INR_IZR_INZ. unfold xdiv. rewrite Req_bool_false by lra. reflexivity.
Qed.

(** every array of finite extended reals is an array of reals *)
Lemma finite_ofR (l : list XR) : (forall x, In x l -> n_isnan x = false /\ n_isinf x = false) -> exists r, l = ofR r.
Proof.
  induction l as [|x l IH]; intros H; [exists []; reflexivity|].
  destruct IH as [r E]; [intros; apply H; right; auto|].
  destruct (H x (or_introl eq_refl)). destruct x as [| |a|]; try discriminate. exists (a :: r). rewrite E. reflexivity.
Qed.

Section Any.
Context {O : numops} (S : numsem O).

(** [m] is [np.min]/[np.max] of the elements of [l] *)
Definition is_min (l : list O) (m : O) : Prop :=
  if existsb n_isnan l then n_isnan m = true
  else In m l /\ forall x, In x l -> n_leb m x = true.
Definition is_max (l : list O) (m : O) : Prop :=
  if existsb n_isnan l then n_isnan m = true
  else In m l /\ forall x, In x l -> n_leb x m = true.

Lemma np_fold_spec (lt le : O -> O -> bool) :
  (forall x y, n_isnan x = false -> n_isnan y = false -> lt y x = false -> le x y = true) ->
  (forall x y, lt y x = true -> le y x = true) ->
  (forall x, n_isnan x = false -> le x x = true) ->
  (forall x y z, le x y = true -> le y z = true -> le x z = true) ->
  forall l x, let m := np_fold lt x l in
  if existsb n_isnan (x :: l) then n_isnan m = true
  else In m (x :: l) /\ forall y, In y (x :: l) -> le m y = true.
Proof.
  intros H1 H2 H3 H4. induction l as [|v l IH]; intros x; cbn [np_fold fold_left].
  - simpl. destruct (n_isnan x) eqn:E; simpl; auto. split; auto. intros y [<-|[]]; auto.
  - set (a := if n_isnan x then x else if n_isnan v then v else if lt v x then v else x).
    specialize (IH a). cbv zeta in *. fold (np_fold lt a l). unfold np_fold in IH |- *. set (m := fold_left _ l a) in *.
    cbn [existsb] in *. destruct (n_isnan x) eqn:Ex.
    + unfold a in IH. rewrite Ex in IH. exact IH.
    + cbn [orb]. destruct (n_isnan v) eqn:Ev.
      * unfold a in IH. rewrite Ev in IH. exact IH.
      * cbn [orb]. assert (Ea : n_isnan a = false) by (unfold a; destruct (lt v x); auto).
        rewrite Ea in IH. cbn [orb] in IH. destruct (existsb n_isnan l); auto.
        destruct IH as [I L]. split.
        -- destruct I as [I|I]; [|right; right; auto]. rewrite <- I. unfold a. destruct (lt v x); [right; left|left]; auto.
        -- assert (La : le m a = true) by (apply L; left; auto).
           assert (Lx : le a x = true) by (unfold a; destruct (lt v x) eqn:E; auto).
           assert (Lv : le a v = true) by (unfold a; destruct (lt v x) eqn:E; auto).
           intros y [<-|[<-|Hy]]; [eapply H4; eauto|eapply H4; eauto|apply L; right; auto].
Qed.

Lemma np_min_spec l m : np_min l = Ok m -> is_min l m.
Proof.
  destruct l as [|x l]; [discriminate|]. simpl. intros E. injection E as <-.
  apply (np_fold_spec n_ltb n_leb).
  - intros a b Ha Hb H. apply (ltb_false_leb S); auto.
  - intros. apply (ltb_leb S); auto.
  - intros. apply (leb_refl S); auto.
  - intros a b c. apply (leb_trans S).
Qed.

Lemma np_max_spec l m : np_max l = Ok m -> is_max l m.
Proof.
  destruct l as [|x l]; [discriminate|]. simpl. intros E. injection E as <-.
  apply (np_fold_spec (fun v acc => n_ltb acc v) (fun a b => n_leb b a)).
  - intros a b Ha Hb H. apply (ltb_false_leb S); auto.
  - intros. apply (ltb_leb S); auto.
  - intros. apply (leb_refl S); auto.
  - intros a b c. intros. eapply (leb_trans S); eauto.
Qed.

Lemma np_min_ok (l : list O) : l <> [] -> exists m, np_min l = Ok m.
Proof. destruct l; [congruence|]. intros _. eexists. reflexivity. Qed.
End Any.
