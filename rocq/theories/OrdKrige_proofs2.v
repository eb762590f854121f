(** Proofs about ordinary kriging in exact arithmetic: results of a call. *)
From Coq Require Import List ZArith Bool Reals Lra Lia.
From Flocq Require Import Core.Raux.
From Verif Require Import Base Num NumF64 NumList NpOps RealSpec RealStat SpecGram_proofs5 Idw_model Idw_spec Kriging_model Kriging_proofs
  OrdKrige_model LinAlg OrdKrige_spec OrdKrige_proofs.
Import ListNotations.
Local Open Scope R_scope.

Lemma mm_ext N A A' B B' i j : (i < N)%nat -> (j < N)%nat ->
  (forall i j, (i < N)%nat -> (j < N)%nat -> A i j = A' i j) -> (forall i j, (i < N)%nat -> (j < N)%nat -> B i j = B' i j) -> mm N A B i j = mm N A' B' i j.
Proof. intros Hi Hj HA HB. apply tot_ext. intros k Hk. rewrite HA, HB by auto. reflexivity. Qed.
Lemma inverse_ext N A A' B : (forall i j, (i < N)%nat -> (j < N)%nat -> A i j = A' i j) -> inverse N A B -> inverse N A' B.
Proof.
  intros E I i j Hi Hj. destruct (I i j Hi Hj) as [I1 I2]. 
  split; [rewrite <- I1|rewrite <- I2]; apply mm_ext; auto; intros; symmetry; auto.
Qed.
Lemma kernel_ext N A A' v : (forall i j, (i < N)%nat -> (j < N)%nat -> A i j = A' i j) -> kernel N A v -> kernel N A' v.
Proof.
  intros E [NZ K]. split; auto. intros i Hi. rewrite <- (K i Hi). apply tot_ext. intros k Hk. rewrite E by auto. reflexivity.
Qed.

Lemma present_all (z : list R) (x : list R) : List.length x = List.length z -> present (ofR z) (ofR x) = ofR x.
Proof.
  revert z. induction x as [|a x IH]; intros [|b z] L; try discriminate; [reflexivity|].
  unfold present. cbn [ofR map combine filter snd negb n_isnan XR xisnan map fst]. fold (ofR x) (ofR z). f_equal. apply IH. simpl in L. lia.
Qed.

Lemma map2_map2 {A B C D E} (f : A -> B -> C) (h : D -> A) (k : E -> B) u v : map2 f (map h u) (map k v) = map2 (fun a b => f (h a) (k b)) u v.
Proof. revert v. induction u as [|a u IH]; intros [|b v]; try reflexivity. change (f (h a) (k b) :: map2 f (map h u) (map k v) = f (h a) (k b) :: map2 (fun a b => f (h a) (k b)) u v). rewrite IH. reflexivity. Qed.
Lemma map_map2 {A B C D} (f : A -> B -> C) (h : C -> D) u v : map h (map2 f u v) = map2 (fun a b => h (f a b)) u v.
Proof. unfold map2. rewrite map_map. reflexivity. Qed.
Lemma map2_ext {A B C} (f f' : A -> B -> C) u v : (forall a b, f a b = f' a b) -> map2 f u v = map2 f' u v.
Proof. intros H. unfold map2. apply map_ext. intros. apply H. Qed.

Section Call.
Variables (vg : XR -> XR) (g : R -> R) (inv : list (list XR) -> res (list (list XR))) (x y : list R).
Hypothesis VG : real_variogram vg g.
Hypothesis LY : List.length y = List.length x.
Hypothesis INV : exact_inv inv.
Let n := List.length x.

Definition wt (B : list (list R)) (p q : R) (i : nat) : R := mv (n + 1) (mget B) (bent g x y p q) i.
Definition val (B : list (list R)) (z : list R) (p q : R) : R := tot (fun i => wt B p q i * rget z i) n.
Definition sig (B : list (list R)) (p q : R) : R := tot (fun i => wt B p q i * gam0 g x y p q i) n - wt B p q n.

Lemma kweights_R B p q : square (n + 1) B ->
  kweights (map ofR B) (ofR (rvec g x y p q)) = ofR (map (wt B p q) (seq 0 (n + 1))).
Proof using.
  clear VG LY INV. intros [L S]. apply get_ext with (d := (n_nan : XR)).
  - unfold kweights, ofR. rewrite !map_length, seq_length. exact L.
  - intros i Hi. unfold kweights in *. rewrite !map_length in Hi.
    rewrite get_map with (d := ([] : list XR)) by (rewrite map_length; auto).
    rewrite get_map with (d := ([] : list R)) by auto. rewrite ndot_R.
    rewrite ofR_get by (rewrite map_length, seq_length; lia). apply (f_equal XFin). unfold rget at 1. rewrite get_map_seq by lia.
    assert (LR : List.length (get [] B i) = (n + 1)%nat) by (apply S; apply get_In; auto).
    rewrite (tot_rget _ _ (n + 1)%nat LR) by (unfold rvec; rewrite map_length, seq_length; fold n; lia).
    unfold wt, mv. apply tot_ext. intros k Hk. unfold mget. f_equal. unfold rvec, rget. rewrite get_map_seq by (fold n; lia). reflexivity.
Qed.

Lemma kpoint_R B z p q : square (n + 1) B -> List.length z = n ->
  kpoint vg (map ofR B) (ofR x) (ofR y) (ofR z) (XFin p : XR) (XFin q : XR) = ((XFin (val B z p q) : XR), (XFin (sig B p q) : XR)).
Proof using VG LY.
  clear INV. intros SB LZ. unfold kpoint. rewrite (kvec_R vg g x y VG LY), kweights_R, opp_R, !ndot_R by auto.
  assert (LW : List.length (map (wt B p q) (seq 0 (n + 1))) = (n + 1)%nat) by (rewrite map_length, seq_length; reflexivity).
  assert (GW : forall k, (k < n + 1)%nat -> rget (map (wt B p q) (seq 0 (n + 1))) k = wt B p q k) by (intros; unfold rget; apply get_map_seq; auto).
  f_equal; apply (f_equal XFin).
  - rewrite (tot_rget' _ _ n) by lia. apply tot_ext. intros k Hk. rewrite GW by lia. reflexivity.
  - assert (LV : List.length (map Ropp (rvec g x y p q)) = (n + 1)%nat) by (unfold rvec; rewrite !map_length, seq_length; reflexivity).
    rewrite (tot_rget' _ _ (n + 1)%nat) by lia. unfold sig. rewrite Nat.add_1_r, tot_S. rewrite <- Nat.add_1_r.
    assert (GV : forall k, (k < n + 1)%nat -> rget (map Ropp (rvec g x y p q)) k = - bent g x y p q k).
    { intros. unfold rvec, rget. rewrite map_map, get_map_seq by (fold n; auto). reflexivity. }
    rewrite GV, GW by lia. rewrite (tot_ext _ (fun i => wt B p q i * gam0 g x y p q i)).
    + unfold bent at 1. fold n. rewrite Nat.eqb_refl. ring.
    + intros k Hk. rewrite GV, GW by lia. unfold bent. fold n. destruct (Nat.eqb_spec k n); [lia|ring].
Qed.

Lemma pykrige_R : (2 <= n)%nat ->
  (exists B, square (n + 1) B /\ inverse (n + 1) (kent g x y) (mget B) /\
     forall z px py, List.length z = n -> List.length px = List.length py ->
       pykrige vg inv (ofR x) (ofR y) (ofR z) (ofR px) (ofR py) = Ok (ofR (map2 (val B z) px py), ofR (map2 (sig B) px py))) \/
  ((exists v, kernel (n + 1) (kent g x y) v) /\
     forall z px py, List.length px = List.length py -> pykrige vg inv (ofR x) (ofR y) (ofR z) (ofR px) (ofR py) = Err OtherError).
Proof using VG LY INV.
  intros N2.
  assert (ST : forall z px py, List.length px = List.length py -> pykrige vg inv (ofR x) (ofR y) (ofR z) (ofR px) (ofR py) =
    do B <- inv (map ofR (rmat g x y)); let r := map2 (kpoint vg B (ofR x) (ofR y) (ofR z)) (ofR px) (ofR py) in Ok (map fst r, map snd r)).
  { intros z px py LP. unfold pykrige. rewrite !ofR_length. fold n. rewrite (proj2 (Nat.ltb_ge n 2) N2), LP, Nat.eqb_refl. cbn [negb].
    rewrite (kmat_R vg g x y VG LY). reflexivity. }
  destruct (INV (n + 1)%nat (rmat g x y) (rmat_square g x y)) as [(B & SB & EB & IB)|(E & v & K)].
  - left. exists B. split; [exact SB|]. split; [revert IB; apply inverse_ext; intros; apply rmat_get; auto|].
    intros z px py LZ LP. rewrite ST, EB by auto. cbn [bind]. cbv zeta.
    assert (KP : map2 (kpoint vg (map ofR B) (ofR x) (ofR y) (ofR z)) (ofR px) (ofR py) = map2 (fun p q => ((XFin (val B z p q) : XR), (XFin (sig B p q) : XR))) px py).
    { transitivity (map2 (fun p q => kpoint vg (map ofR B) (ofR x) (ofR y) (ofR z) (XFin p : XR) (XFin q : XR)) px py).
      - apply (map2_map2 (kpoint vg (map ofR B) (ofR x) (ofR y) (ofR z)) (fun r => XFin r : XR) (fun r => XFin r : XR)).
      - apply map2_ext. intros. apply kpoint_R; auto. }
    rewrite KP. unfold ofR. rewrite !map_map2. reflexivity.
  - right. split; [exists v; revert K; apply kernel_ext; intros; apply rmat_get; auto|].
    intros z px py LP. rewrite ST, E by auto. reflexivity.
Qed.

Lemma concat_ofR gx : concat (grid_values (FloatGrid (map ofR gx))) = ofR (concat gx).
Proof using. clear. cbn [grid_values]. unfold ofR. rewrite concat_map. reflexivity. Qed.

Lemma is_grid_length rows cols gx : is_grid rows cols gx -> List.length (concat gx) = (rows * cols)%nat.
Proof using.
  clear. intros [L H]. subst rows. induction gx as [|r gx IH]; [reflexivity|]. simpl. rewrite app_length, IH by (intros; apply H; right; auto).
  rewrite (H r) by (left; auto). reflexivity.
Qed.

(** one call, given what pykrige does *)
Lemma call_R z rows cols gx gy : (1 <= n)%nat -> List.length z = n ->
  let out := pykrige vg inv (ofR x) (ofR y) (ofR z) (ofR (concat gx)) (ofR (concat gy)) in
  (forall e, out = Err e -> krige_raises vg inv x y z rows cols gx gy e) /\
  (forall zi sg, out = Ok (ofR zi, ofR sg) -> List.length zi = (rows * cols)%nat -> kriged vg inv x y z rows cols gx gy zi sg).
Proof using VG LY.
  intros N1 LZ out.
  assert (HV : exists v, In v (ofR z) /\ n_isnan v = false).
  { destruct z as [|a z]; [simpl in LZ; lia|]. exists (XFin a : XR). split; [left; reflexivity|reflexivity]. }
  pose proof (krige_result (pykrige vg inv) (new_kriging true) (ofR x) (ofR y) (ofR z) rows cols (FloatGrid (map ofR gx)) (FloatGrid (map ofR gy))) as H.
  rewrite !ofR_length in H. specialize (H ltac:(unfold n in LZ; lia) ltac:(unfold n in LZ; lia) HV). cbv zeta in H. cbn [k_exclude_nan new_kriging] in H.
  rewrite !concat_ofR, !present_all in H by (unfold n in LZ; lia). fold out in H. unfold krige_raises, kriged.
  destruct (krige_call _ _ _ _ _ _ _ _ _) as [s r]. destruct H as (_ & HE & HO). split.
  - intros e E. apply HE in E as [-> _]. reflexivity.
  - intros zi sg E L. apply HO in E as (ES & _ & HG). rewrite ofR_length in HG. destruct (HG L) as (zg & -> & RG & C). exists s, zg. auto.
Qed.

Lemma regular_sol B p q : inverse (n + 1) (kent g x y) (mget B) -> regular g x y /\ krige_sys g x y p q (wt B p q) (wt B p q n).
Proof using.
  clear VG LY INV. intros I. split.
  - apply regular_iff. intros (v & (i & Hi & NZ) & K). apply NZ. apply (inverse_injective (n + 1) (kent g x y) (mget B)); auto.
  - apply sys_iff. fold n. intros i Hi. apply (inverse_solves (n + 1) (kent g x y) (mget B)); auto.
Qed.

(** the result of a call, by the system *)
Lemma call_cases z rows cols gx gy : (2 <= n)%nat -> List.length z = n -> is_grid rows cols gx -> is_grid rows cols gy ->
  (regular g x y /\ exists zi sg, kriged vg inv x y z rows cols gx gy zi sg /\
     List.length zi = (rows * cols)%nat /\ List.length sg = (rows * cols)%nat /\
     forall k, (k < rows * cols)%nat -> exists w mu, let p := rget (concat gx) k in let q := rget (concat gy) k in
       krige_sys g x y p q w mu /\ rget zi k = tot (fun i => w i * rget z i) n /\
       rget sg k = tot (fun i => w i * gam0 g x y p q i) n - mu) \/
  (~ regular g x y /\ krige_raises vg inv x y z rows cols gx gy OtherError).
Proof using VG LY INV.
  intros N2 LZ GX GY. apply is_grid_length in GX, GY. assert (LP : List.length (concat gx) = List.length (concat gy)) by lia.
  destruct (call_R z rows cols gx gy ltac:(lia) LZ) as [CE CO].
  destruct (pykrige_R N2) as [(B & SB & IB & E)|(K & E)].
  - left. split; [apply (regular_sol B 0 0 IB)|]. specialize (E z _ _ LZ LP).
    exists (map2 (val B z) (concat gx) (concat gy)), (map2 (sig B) (concat gx) (concat gy)).
    assert (L1 : List.length (map2 (val B z) (concat gx) (concat gy)) = (rows * cols)%nat) by (rewrite map2_length by auto; auto).
    split; [apply CO; auto|]. split; [exact L1|]. split; [rewrite map2_length by auto; auto|].
    intros k Hk. exists (wt B (rget (concat gx) k) (rget (concat gy) k)), (wt B (rget (concat gx) k) (rget (concat gy) k) n). cbv zeta.
    split; [apply regular_sol; exact IB|]. 
    assert (GM : forall f : R -> R -> R, rget (map2 f (concat gx) (concat gy)) k = f (rget (concat gx) k) (rget (concat gy) k)) by (intros; unfold rget; apply get_map2; lia).
    rewrite !GM. split; reflexivity.
  - right. split; [intros RG; apply regular_iff in RG; contradiction|]. apply CE. apply E. exact LP.
Qed.
End Call.

(** a call has one result *)
Lemma kriged_det vg inv x y z rows cols gx gy zi sg zi' sg' :
  kriged vg inv x y z rows cols gx gy zi sg -> kriged vg inv x y z rows cols gx gy zi' sg' -> zi = zi' /\ sg = sg'.
Proof.
  intros (s & G & E & _ & C & S) (s' & G' & E' & _ & C' & S'). rewrite E in E'. injection E' as <- <-. rewrite C in C'. rewrite S in S'.
  injection S' as S'. assert (INJ : forall a b, ofR a = ofR b -> a = b).
  { clear. induction a as [|u a IH]; intros [|v b] H; try discriminate; [reflexivity|]. cbn in H. injection H as -> H. f_equal. apply IH. exact H. }
  auto.
Qed.
Lemma kriged_raises vg inv x y z rows cols gx gy zi sg e : kriged vg inv x y z rows cols gx gy zi sg -> krige_raises vg inv x y z rows cols gx gy e -> False.
Proof. intros (s & G & E & _) H. unfold krige_raises in H. rewrite E in H. discriminate. Qed.
