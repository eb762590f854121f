(** * Measurement errors: baselines and inverse distance weighting in exact arithmetic *)
From Coq Require Import List ZArith Bool Reals Lia Lra.
From Flocq Require Import Core.Raux.
From Verif Require Import Base Num NumList Libm RealSpec Baseline_model Baseline_spec Baseline_proofs Baseline_proofs2 BaselineSym_spec BaselineSym_proofs Shift_spec Shift_proofs
  Idw_model Idw_spec Idw_props IdwSym_props MeasErr_spec.
Import ListNotations.
Local Open Scope nat_scope.
Local Notation length := List.length.

Lemma off_xs c (t : list R) : off c (xs t : list XR) = xs (map (fun r => r + c)%R t).
Proof. unfold off, xs. rewrite !map_map. reflexivity. Qed.
Lemma get_off c (b : list XR) i : i < length b -> get XNaN (off c b) i = n_add (get XNaN b i) (XFin c : XR).
Proof. intros H. unfold off. rewrite (get_map _ (XNaN : XR)) by auto. reflexivity. Qed.

Lemma near_of q (x y : XR) : ordered (n_add x (XFin (- q) : XR)) y -> ordered y (n_add x (XFin q : XR)) -> near q x y.
Proof.
  intros H1 H2. destruct x as [| |r|].
  - left. split; auto. destruct H1 as [(_ & E)|(r & s & E & _)]; [exact E|discriminate E].
  - destruct H1 as [(E & _)|(r & s & E & _)]; discriminate E.
  - destruct H1 as [(E & _)|(r1 & s1 & E & -> & L1)]; [discriminate E|]. injection E as E. destruct H2 as [(E2 & _)|(r2 & s2 & E2 & E3 & L2)]; [discriminate E2|].
    injection E2 as E2. injection E3 as E3. right. exists r, s1. split; auto. split; auto. apply Rabs_le. simpl in *. lra.
  - destruct H1 as [(E & _)|(r & s & E & _)]; discriminate E.
Qed.

Lemma constant_near q t1 t2 (wet : list XR) n b1 b2 : within q t1 t2 ->
  baseline_constant (xs t1 : list XR) wet n = Ok b1 -> baseline_constant (xs t2 : list XR) wet n = Ok b2 ->
  forall i, i < length t1 -> near q (get XNaN b1 i) (get XNaN b2 i).
Proof.
  intros (L & H) E1 E2 i Hi. assert (X1 : length b1 = length t1). { destruct (constant_rec _ _ _ _ E1) as (LB & _). rewrite LB. apply map_length. }
  assert (S : forall c, baseline_constant (xs (map (fun r => r + c)%R t1) : list XR) wet n = Ok (off c b1)) by (intros c; rewrite <- off_xs, baseline_shift, E1; reflexivity).
  assert (G : forall c j, j < length t1 -> (get 0 (map (fun r => r + c)%R t1) j = get 0 t1 j + c)%R) by (intros c j Hj; rewrite (get_map _ 0%R) by auto; reflexivity).
  apply near_of; rewrite <- get_off by lia.
  - apply (constant_monotone (map (fun r => r + - q)%R t1) t2 wet n); auto; rewrite ?map_length; auto.
    intros j Hj. rewrite G by auto. specialize (H j Hj). apply Rabs_le_inv in H. unfold rget, get in *. lra.
  - apply (constant_monotone t2 (map (fun r => r + q)%R t1) wet n); auto; rewrite ?map_length; auto; try lia.
    intros j Hj. rewrite G by lia. specialize (H j ltac:(lia)). apply Rabs_le_inv in H. unfold rget, get in *. lra.
Qed.

Lemma linear_near q t1 t2 (wet : list XR) ign b1 b2 : within q t1 t2 -> length wet = length t1 ->
  baseline_linear (xs t1 : list XR) wet ign = Ok b1 -> baseline_linear (xs t2 : list XR) wet ign = Ok b2 ->
  forall i, i < length t1 -> near q (get XNaN b1 i) (get XNaN b2 i).
Proof.
  intros (HL & H) HW E1 E2 j Hj.
  assert (X1 : length (xs t1 : list XR) = length t1) by apply map_length.
  assert (X2 : length (xs t2 : list XR) = length t1) by (unfold xs; rewrite map_length; auto).
  assert (Q0 : (0 <= q)%R) by (eapply Rle_trans; [apply Rabs_pos|apply (H j Hj)]).
  change (near q (nget b1 j) (nget b2 j)).
  destruct (linear_cases ign wet (length t1) j Hj) as [(d & e & C & J & Q)|[(A & Q)|Q]]; rewrite (Q _ _ X1 E1), (Q _ _ X2 E2).
  - rewrite !run_real by (rewrite ?HL; auto). destruct (dirty wet ign d e); [left; auto|]. right. eexists _, _.
    split; [reflexivity|]. split; [reflexivity|]. destruct C as (C1 & C2 & _).
    pose proof (H d ltac:(lia)) as Hd. pose proof (H e ltac:(lia)) as He. apply Rabs_le_inv in Hd, He. unfold rget, get in *.
    assert (P : (0 < INR (e - d))%R) by (apply lt_0_INR; lia).
    assert (F : (0 <= INR (j - d) / INR (e - d) <= 1)%R).
    { split; [apply Rmult_le_pos; [apply pos_INR|left; apply Rinv_0_lt_compat; auto]|].
      apply Rmult_le_reg_r with (INR (e - d)); auto. unfold Rdiv. rewrite Rmult_assoc, Rinv_l, Rmult_1_l, Rmult_1_r by lra. apply le_INR; lia. }
    set (f := (INR (j - d) / INR (e - d))%R) in *. apply Rabs_le. nra.
  - right. unfold nget. rewrite !xs_get by lia. eexists _, _. split; [reflexivity|]. split; [reflexivity|]. apply H. auto.
  - right. exists 0%R, 0%R. split; [reflexivity|]. split; [reflexivity|]. rewrite Rminus_0_r, Rabs_R0. auto.
Qed.

Lemma sum_bound (z : list R) used i : In i used -> (- fold_right (fun i s => Rabs (rget z i) + s) 0 used <= rget z i <= fold_right (fun i s => Rabs (rget z i) + s) 0 used)%R.
Proof.
  assert (P : forall l, (0 <= fold_right (fun i s => Rabs (rget z i) + s) 0 l)%R) by (induction l as [|a l IH]; simpl; [lra|pose proof (Rabs_pos (rget z a)); lra]).
  induction used as [|a used IH]; [intros []|]. intros [->|I]; simpl; [specialize (P used); pose proof (Rle_abs (rget z i)); pose proof (Rle_abs (- rget z i)); rewrite Rabs_Ropp in *; lra|].
  specialize (IH I). pose proof (Rabs_pos (rget z a)). lra.
Qed.

Lemma idw_near q query (X qs : list rpt) k (p : R) ub t z z' v v' :
  query_ok query -> new_tree (map ofP X) = Ok t -> qs <> [] -> 2 <= k -> length z = length X -> within q z z' ->
  snd (tree_call XRm query t (map ofP qs) (ofR z) k zero (XFin p : XR) (ofU ub)) = Ok v ->
  snd (tree_call XRm query t (map ofP qs) (ofR z') k zero (XFin p : XR) (ofU ub)) = Ok v' ->
  forall j, j < length qs -> near q (get (n_nan : XR) v j) (get (n_nan : XR) v' j).
Proof.
  intros QO NT NQ K LZ (LZ' & H) E E' j Hj.
  assert (FN : forall y w, length y = length X -> snd (tree_call XRm query t (map ofP qs) (ofR y) k zero (XFin p : XR) (ofU ub)) = Ok w ->
    length w = length qs /\ (get (n_nan : XR) w j = (XNaN : XR) \/ exists r, get (n_nan : XR) w j = (XFin r : XR))).
  { intros y w LY EW. destruct (C39_idw_weighted_mean_exact query X qs y k p ub t QO NT LY NQ K) as (w' & EW' & LW & S). rewrite EW in EW'. injection EW' as <-.
    split; auto. destruct (S j Hj) as (used & _ & _ & N & _ & B). destruct used as [|a used]; [left; apply N; reflexivity|right].
    destruct (B _ _ (sum_bound y (a :: used)) ltac:(discriminate)) as (r & R & _). eauto. }
  destruct (C110_linear_and_monotone_exact query X qs k p ub t QO NT NQ K) as (_ & AF & MO).
  destruct (FN z v LZ E) as (LV & F). destruct (FN z' v' ltac:(lia) E') as (_ & F').
  assert (S : forall c, snd (tree_call XRm query t (map ofP qs) (ofR (map (fun x => 1 * x + c)%R z)) k zero (XFin p : XR) (ofU ub)) = Ok (map (fun x : XR => n_add (n_mul (XFin 1 : XR) x) (XFin c : XR)) v)) by (intros c; apply AF; auto).
  assert (G : forall c i, i < length X -> rget (map (fun x => 1 * x + c)%R z) i = (rget z i + c)%R) by (intros c i Hi; unfold rget; rewrite (get_map _ 0%R) by lia; unfold get; ring).
  set (sh := fun c : R => map (fun x : XR => n_add (n_mul (XFin 1 : XR) x) (XFin c : XR)) v) in *.
  assert (M1 : let x := get (n_nan : XR) (sh (- q)%R) j in let x' := get (n_nan : XR) v' j in (x = n_nan /\ x' = n_nan) \/ n_leb x x' = true).
  { apply (MO (map (fun x => 1 * x + - q)%R z) z' (sh (- q)%R) v'); try apply S; try (rewrite ?map_length; lia); auto.
    intros i Hi. rewrite G by auto. specialize (H i ltac:(lia)). apply Rabs_le_inv in H. lra. }
  assert (M2 : let x := get (n_nan : XR) v' j in let x' := get (n_nan : XR) (sh q) j in (x = n_nan /\ x' = n_nan) \/ n_leb x x' = true).
  { apply (MO z' (map (fun x => 1 * x + q)%R z) v' (sh q)); try apply S; try (rewrite ?map_length; lia); auto.
    intros i Hi. rewrite G by auto. specialize (H i ltac:(lia)). apply Rabs_le_inv in H. lra. }
  cbv zeta in M1, M2. unfold sh in M1, M2.
  rewrite (get_map _ (n_nan : XR)) in M1 by (unfold XR in *; lia). rewrite (get_map _ (n_nan : XR)) in M2 by (unfold XR in *; lia).
  destruct F as [F|(r & F)], F' as [F'|(r' & F')]; rewrite F, F' in *.
  - left. auto.
  - destruct M1 as [(_ & M1)|M1]; discriminate M1.
  - destruct M1 as [(M1 & _)|M1]; discriminate M1.
  - right. exists r, r'. split; auto. split; auto. destruct M1 as [(M1 & _)|M1]; [discriminate M1|]. destruct M2 as [(M2 & _)|M2]; [discriminate M2|].
    change (Rle_bool (1 * r + - q) r' = true) in M1. change (Rle_bool r' (1 * r + q) = true) in M2. revert M1 M2. case Rle_bool_spec; [|discriminate]. intros A _. case Rle_bool_spec; [|discriminate]. intros B _. apply Rabs_le. lra.
Qed.
