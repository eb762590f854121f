(** Consequences for kriging with the nearest stations only. *)
From Coq Require Import List ZArith Bool Reals Lra Lia Permutation.
From Verif Require Import Base Num NumF64 NumList NpOps RealSpec RealStat SpecGram_proofs5 Idw_spec Kriging_model
  OrdKrige_model LinAlg PosDef OrdKrige_spec OrdKrige_proofs OrdKrige_proofs2 OrdKrige_proofs3 OrdKrigePd_proofs KrigeWin_model KrigeWin_spec KrigeWin_proofs.
Import ListNotations.
Local Open Scope R_scope.

Lemma one_grid (p : R) : is_grid 1 1 [[p]].
Proof. split; [reflexivity|]. intros r [<-|[]]. reflexivity. Qed.

Section W.
Variables (vg : XR -> XR) (g : R -> R) (inv : list (list XR) -> res (list (list XR))) (x y z : list R) (k : nat).
Hypothesis VG : real_variogram vg g.
Hypothesis INV : exact_inv inv.
Hypothesis LY : List.length y = List.length x.
Hypothesis LZ : List.length z = List.length x.
Hypothesis K2 : (2 <= k)%nat.
Notation n := (List.length x).

(** the same point by a call with the nearest stations only *)
Lemma point_kriged p q vl sg used : point_ok g x y k z p q vl sg used ->
  kriged vg inv (only used x) (only used y) (only used z) 1 1 [[p]] [[q]] [vl] [sg].
Proof using VG INV LY K2.
  clear LZ. intros (NS & RG & w & mu & SY & EV & ES). assert (L : List.length used = k) by apply NS.
  apply (kriged_intro vg g inv (only used x) (only used y) 1 1 [[p]] [[q]] VG INV); try apply one_grid; auto; try (rewrite ?only_length; lia).
  intros j Hj. assert (j = 0%nat) by lia. subst j. exists w, mu. change (rget (concat [[p]]) 0) with p. change (rget (concat [[q]]) 0) with q.
  split; [exact SY|]. rewrite only_length, L. split; [exact EV|exact ES].
Qed.
Lemma not_regular_raises p q used : nearest_stations x y k p q used -> ~ regular g (only used x) (only used y) ->
  krige_raises vg inv (only used x) (only used y) (only used z) 1 1 [[p]] [[q]] OtherError.
Proof using VG INV LY K2.
  clear LZ. intros (L & _) NR. destruct (call_cases vg g inv (only used x) (only used y) VG ltac:(rewrite !only_length; lia) INV (only used z) 1 1 [[p]] [[q]]) as [(RG & _)|(_ & E)]; auto;
    try apply one_grid; try (rewrite ?only_length; lia). contradiction.
Qed.

Lemma only_triples used : (forall i, In i used -> (i < n)%nat) ->
  combine (combine (only used x) (only used y)) (only used z) = map (fun i => nth i (combine (combine x y) z) ((0, 0), 0)) used.
Proof using LY LZ.
  clear - LY LZ. induction used as [|i u IH]; intros H; [reflexivity|]. cbn [only map combine]. fold (only u x) (only u y) (only u z).
  rewrite IH by (intros; apply H; right; auto). rewrite nth_combine3 by auto. reflexivity.
Qed.
Lemma all_perm p q used : k = n -> nearest_stations x y k p q used ->
  Permutation (combine (combine x y) z) (combine (combine (only used x) (only used y)) (only used z)).
Proof using LY LZ.
  clear - LY LZ. intros KN (L & ND & RG & _). rewrite only_triples by exact RG.
  assert (E : combine (combine x y) z = map (fun i => nth i (combine (combine x y) z) ((0, 0), 0)) (seq 0 n)).
  { transitivity (map (fun i => nth i (combine (combine x y) z) ((0, 0), 0)) (seq 0 (List.length (combine (combine x y) z)))).
    - apply (list_seq ((0, 0), 0) (combine (combine x y) z)).
    - f_equal. f_equal. rewrite !combine_length. lia. }
  rewrite E at 1. apply Permutation_map. apply Permutation_sym. apply NoDup_Permutation_bis; [exact ND|rewrite seq_length; lia|].
  intros i Hi. apply in_seq. specialize (RG i Hi). lia.
Qed.

(** weights of the used stations as weights of all *)
Definition spread (used : list nat) (w : nat -> R) (i : nat) : R := tot (fun j => w j * delta (get 0%nat used j) i) (List.length used).
Lemma spread_tot used w f : (forall i, In i used -> (i < n)%nat) ->
  tot (fun i => spread used w i * f i) n = tot (fun j => w j * f (get 0%nat used j)) (List.length used).
Proof using.
  clear. intros RG. unfold spread. rewrite (tot_ext _ (fun i => tot (fun j => w j * delta (get 0%nat used j) i * f i) (List.length used))).
  - rewrite tot_swap. apply tot_ext. intros j Hj. rewrite (tot_ext _ (fun i => w j * (delta (get 0%nat used j) i * f i))) by (intros; ring).
    rewrite tot_scal, tot_delta_l; [reflexivity|]. apply RG. apply get_In. exact Hj.
  - intros i _. rewrite Rmult_comm, <- tot_scal. apply tot_ext. intros; ring.
Qed.
Lemma spread_var used w p q : NoDup used -> (forall i, In i used -> (i < n)%nat) ->
  est_var g x y p q (spread used w) = est_var g (only used x) (only used y) p q w.
Proof using.
  clear. intros ND RG. unfold est_var. rewrite only_length. f_equal; [f_equal|].
  - rewrite spread_tot by auto. apply tot_ext. intros j Hj. f_equal. unfold gam0. rewrite !only_get by auto. reflexivity.
  - rewrite (tot_ext _ (fun i => spread used w i * tot (fun j => spread used w j * gam g x y i j) n)) by (intros; rewrite <- tot_scal; apply tot_ext; intros; ring).
    rewrite spread_tot by auto. apply tot_ext. intros i Hi. rewrite spread_tot by auto. rewrite <- tot_scal. apply tot_ext. intros j Hj.
    rewrite Rmult_assoc. f_equal. f_equal. unfold gam. rewrite !only_get by auto. destruct (Nat.eqb_spec i j) as [->|NE]; [rewrite Nat.eqb_refl; reflexivity|].
    destruct (Nat.eqb_spec (get 0%nat used i) (get 0%nat used j)) as [E|]; [|reflexivity]. apply nodup_get in E; auto. contradiction.
Qed.
Lemma spread_one used w : (forall i, In i used -> (i < n)%nat) -> tot w (List.length used) = 1 -> tot (spread used w) n = 1.
Proof using.
  clear. intros RG S1. rewrite (tot_ext _ (fun i => spread used w i * 1)) by (intros; ring). rewrite (spread_tot used w (fun _ => 1) RG).
  etransitivity; [|exact S1]. apply tot_ext. intros; ring.
Qed.
End W.

Section N.
Variables (vg : XR -> XR) (g : R -> R) (inv : list (list XR) -> res (list (list XR))) (x y : list R) (rows cols : nat) (gx gy : list (list R)).
Variable solve : list (list XR) -> list XR -> res (list XR).
Variable query : list (XR * XR) -> XR * XR -> nat -> XR -> option XR -> list (XR * nat).
Variables (k : nat) (z : list R).
Hypothesis VG : real_variogram vg g.
Hypothesis INV : exact_inv inv.
Hypothesis SOL : exact_solve solve.
Hypothesis QOK : query_ok query.
Hypothesis ST : setting x y z rows cols gx gy.
Hypothesis KK : (2 <= k <= List.length x)%nat.
Notation n := (List.length x).
Notation P j := (rget (concat gx) j).
Notation Q j := (rget (concat gy) j).

Lemma near_elim zi sg : kriged_near vg solve query k x y z rows cols gx gy zi sg ->
  List.length zi = (rows * cols)%nat /\ List.length sg = (rows * cols)%nat /\
  forall j, (j < rows * cols)%nat -> exists used, point_ok g x y k z (P j) (Q j) (rget zi j) (rget sg j) used.
Proof using VG SOL QOK ST KK.
  intros K. destruct ST as (LY & LZ & N2 & GX & GY).
  destruct (near_cases vg g x y solve query k VG LY SOL QOK ltac:(lia) ltac:(lia) z rows cols gx gy LZ GX GY) as [(zi' & sg' & K' & L1 & L2 & A)|(E & _)].
  - destruct (kriged_near_det _ _ _ _ _ _ _ _ _ _ _ _ _ _ _ K K') as [-> ->]. auto.
  - destruct (near_raises_not _ _ _ _ _ _ _ _ _ _ _ _ _ _ K E).
Qed.

Lemma near_kriging :
  (exists zi sg, kriged_near vg solve query k x y z rows cols gx gy zi sg /\ List.length zi = (rows * cols)%nat /\ List.length sg = (rows * cols)%nat /\
     forall j, (j < rows * cols)%nat -> exists used, nearest_stations x y k (P j) (Q j) used /\
       kriged vg inv (only used x) (only used y) (only used z) 1 1 [[P j]] [[Q j]] [rget zi j] [rget sg j]) \/
  (near_raises vg solve query k x y z rows cols gx gy OtherError /\
     exists j used, (j < rows * cols)%nat /\ nearest_stations x y k (P j) (Q j) used /\
       krige_raises vg inv (only used x) (only used y) (only used z) 1 1 [[P j]] [[Q j]] OtherError).
Proof using VG INV SOL QOK ST KK.
  destruct ST as (LY & LZ & N2 & GX & GY).
  destruct (near_cases vg g x y solve query k VG LY SOL QOK ltac:(lia) ltac:(lia) z rows cols gx gy LZ GX GY) as [(zi & sg & K & L1 & L2 & A)|(E & j & u & Hj & NS & NR)].
  - left. exists zi, sg. split; [exact K|]. split; [exact L1|]. split; [exact L2|]. intros j Hj. destruct (A j Hj) as (u & PO). exists u. split; [apply PO|].
    apply (point_kriged vg g inv x y z k VG INV LY ltac:(lia)); exact PO.
  - right. split; [exact E|]. exists j, u. split; [exact Hj|]. split; [exact NS|]. apply (not_regular_raises vg g inv x y z k); auto; lia.
Qed.

Lemma near_all zi sg : k = n -> kriged vg inv x y z rows cols gx gy zi sg -> kriged_near vg solve query k x y z rows cols gx gy zi sg.
Proof using VG INV SOL QOK ST KK.
  intros KN K. destruct ST as (LY & LZ & N2 & GX & GY).
  destruct (kriged_elim vg g inv x y rows cols gx gy VG INV LY N2 GX GY z zi sg LZ K) as (RG & L1 & L2 & V).
  assert (ONE : forall j u, (j < rows * cols)%nat -> nearest_stations x y k (P j) (Q j) u ->
    kriged vg inv (only u x) (only u y) (only u z) 1 1 [[P j]] [[Q j]] [rget zi j] [rget sg j]).
  { intros j u Hj NS. assert (L : List.length u = k) by apply NS.
    apply (krige_order vg g inv x y z (only u x) (only u y) (only u z)); try apply one_grid; auto; try (rewrite ?only_length; lia); [apply (all_perm x y z k LY LZ (P j) (Q j)); auto|].
    apply (kriged_intro vg g inv x y 1 1 [[P j]] [[Q j]] VG INV LY N2); try apply one_grid; auto.
    intros m Hm. assert (m = 0%nat) by lia. subst m. destruct (V j Hj) as [(w & mu & SY) VV]. exists w, mu. split; [exact SY|]. apply (VV w mu SY). }
  destruct near_kriging as [(zi' & sg' & K' & L1' & L2' & A)|(_ & j & u & Hj & NS & E)].
  - replace zi with zi'; [replace sg with sg'; [exact K'|]|]; apply get_ext with (d := 0); try lia; intros j Hj;
    (destruct (A j ltac:(lia)) as (u & NS & KU); pose proof (ONE j u ltac:(lia) NS) as KO; destruct (kriged_det _ _ _ _ _ _ _ _ _ _ _ _ _ KU KO) as [E1 E2]).
    + injection E2 as E2. exact E2.
    + injection E1 as E1. exact E1.
  - destruct (kriged_raises _ _ _ _ _ _ _ _ _ _ _ _ (ONE j u Hj NS) E).
Qed.

Lemma near_constant c zi sg : z = repeat c n -> kriged_near vg solve query k x y z rows cols gx gy zi sg -> zi = repeat c (rows * cols).
Proof using VG SOL QOK ST KK.
  intros EZ K. destruct (near_elim zi sg K) as (L1 & _ & A). apply get_ext with (d := 0); [rewrite repeat_length; exact L1|].
  intros j Hj. rewrite L1 in Hj. rewrite get_repeat by auto. destruct (A j Hj) as (u & (LU & _ & RU & _) & _ & w & mu & (S1 & _) & EV & _).
  change (rget zi j = c). rewrite EV. rewrite only_length, LU in S1. rewrite (tot_ext _ (fun i => c * w i)); [rewrite tot_scal, S1; ring|].
  intros i Hi. rewrite only_get by lia. rewrite EZ. unfold rget. rewrite get_repeat by (apply RU, get_In; lia). ring.
Qed.

Lemma near_station zi sg j i : kriged_near vg solve query k x y z rows cols gx gy zi sg -> (j < rows * cols)%nat -> (i < n)%nat ->
  P j = rget x i -> Q j = rget y i ->
  (forall m, (m < n)%nat -> m <> i -> 1 / 10 ^ 10 < rdist (rget x i) (rget y i) (rget x m) (rget y m)) ->
  rget zi j = rget z i /\ rget sg j = 0.
Proof using VG INV SOL QOK ST KK.
  intros K Hj Hi EP EQ Far. destruct (near_elim zi sg K) as (_ & _ & A). destruct (A j Hj) as (u & PO).
  assert (NS : nearest_stations x y k (P j) (Q j) u) by apply PO. destruct NS as (LU & ND & RU & NN). destruct ST as (LY & LZ & N2 & GX & GY).
  assert (IN : In i u).
  { destruct (in_dec Nat.eq_dec i u) as [|NI]; [auto|exfalso]. destruct u as [|a u]; [cbn in LU; lia|].
    specialize (NN a i (or_introl eq_refl) Hi NI). rewrite EP, EQ, OrdKrigePd_proofs.rdist_refl in NN.
    assert (NE : a <> i) by (intros ->; apply NI; left; reflexivity). specialize (Far a (RU a (or_introl eq_refl)) NE). lra. }
  apply In_nth with (d := 0%nat) in IN as (m & Hm & Em). fold (get 0%nat u m) in Em.
  pose proof (point_kriged vg g inv x y z k VG INV LY ltac:(lia) _ _ _ _ u PO) as KU.
  destruct (krige_exact vg g inv (only u x) (only u y) 1 1 [[P j]] [[Q j]] VG INV ltac:(rewrite !only_length; reflexivity) ltac:(rewrite only_length; lia)
    (one_grid _) (one_grid _) (only u z) [rget zi j] [rget sg j] 0 m) as [E1 E2]; try (rewrite ?only_length; auto; fail).
  - rewrite only_get by auto. rewrite Em. exact EP.
  - rewrite only_get by auto. rewrite Em. exact EQ.
  - intros l Hl NE. rewrite only_length in Hl. rewrite !only_get by auto. rewrite Em. apply Far; [apply RU, get_In; auto|].
    rewrite <- Em. intros E. apply nodup_get in E; auto.
  - change (rget [rget zi j] 0) with (rget zi j) in E1. change (rget [rget sg j] 0) with (rget sg j) in E2. rewrite E1. split; [|exact E2].
    rewrite only_get by auto. rewrite Em. reflexivity.
Qed.
End N.
