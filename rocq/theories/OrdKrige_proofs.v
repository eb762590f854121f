(** Proofs about ordinary kriging in exact arithmetic: the system that is solved. *)
From Coq Require Import List ZArith Bool Reals Lra Lia.
From Flocq Require Import Core.Raux.
From Verif Require Import Base Num NumF64 NumList NpOps RealSpec RealStat SpecGram_proofs5 Idw_model Idw_spec Kriging_model Kriging_proofs
  OrdKrige_model LinAlg OrdKrige_spec.
Import ListNotations.
Local Open Scope R_scope.

Lemma tot_rget u v m : List.length u = m -> (m <= List.length v)%nat -> rsum (map2 Rmult u v) = tot (fun k => rget u k * rget v k) m.
Proof.
  revert v m. induction u as [|a u IH]; intros v m E L; [simpl in E; subst; reflexivity|].
  destruct m; [discriminate|]. destruct v as [|b v]; [simpl in L; lia|].
  change (rsum (map2 Rmult (a :: u) (b :: v))) with (a * b + rsum (map2 Rmult u v)).
  rewrite tot_shift. rewrite (IH v m) by (simpl in *; lia). reflexivity.
Qed.
Lemma tot_rget' u v m : (m <= List.length u)%nat -> List.length v = m -> rsum (map2 Rmult u v) = tot (fun k => rget u k * rget v k) m.
Proof.
  revert u m. induction v as [|b v IH]; intros u m L E; [simpl in E; subst; destruct u; reflexivity|].
  destruct m; [discriminate|]. destruct u as [|a u]; [simpl in L; lia|].
  change (rsum (map2 Rmult (a :: u) (b :: v))) with (a * b + rsum (map2 Rmult u v)).
  rewrite tot_shift. rewrite (IH u m) by (simpl in *; lia). reflexivity.
Qed.

Lemma map2_ofR u v : map2 n_mul (ofR u) (ofR v) = ofR (map2 Rmult u v).
Proof.
  revert v. induction u as [|a u IH]; intros [|b v]; try reflexivity.
  change (n_mul (XFin a : XR) (XFin b : XR) :: map2 n_mul (ofR u) (ofR v) = (XFin (a * b) : XR) :: ofR (map2 Rmult u v)).
  rewrite IH. reflexivity.
Qed.
Lemma ndot_R u v : ndot (ofR u) (ofR v) = (XFin (rsum (map2 Rmult u v)) : XR).
Proof. unfold ndot. rewrite map2_ofR. apply n_sum_ofR. Qed.
Lemma opp_R u : map n_opp (ofR u) = ofR (map Ropp u).
Proof. unfold ofR. rewrite !map_map. reflexivity. Qed.

Lemma dist_R x y x' y' : dist (XFin x : XR) (XFin y : XR) (XFin x' : XR) (XFin y' : XR) = (XFin (rdist x y x' y') : XR).
Proof.
  unfold dist, rdist. change (xsqrt (XFin ((x - x') * (x - x') + (y - y') * (y - y'))) = XFin (sqrt ((x - x') * (x - x') + (y - y') * (y - y')))).
  simpl. rewrite Rlt_bool_false; [reflexivity|]. assert (forall a, 0 <= a * a) by (intros; apply Rle_0_sqr). pose proof (H (x - x')). pose proof (H (y - y')). lra.
Qed.
Lemma rdist_pos x y x' y' : 0 <= rdist x y x' y'.
Proof. apply sqrt_pos. Qed.
Lemma rdist_sym x y x' y' : rdist x y x' y' = rdist x' y' x y.
Proof. unfold rdist. f_equal. ring. Qed.

Section Sys.
Variables (vg : XR -> XR) (g : R -> R) (x y : list R).
Hypothesis VG : real_variogram vg g.
Hypothesis LY : List.length y = List.length x.
Let n := List.length x.

Definition kent (i j : nat) : R :=
  if Nat.eqb i n then (if Nat.eqb j n then 0 else 1) else if Nat.eqb j n then 1 else - gam g x y i j.
Definition bent (p q : R) (i : nat) : R := if Nat.eqb i n then 1 else - gam0 g x y p q i.
Definition rmat : list (list R) := map (fun i => map (kent i) (seq 0 (n + 1))) (seq 0 (n + 1)).
Definition rvec (p q : R) : list R := map (bent p q) (seq 0 (n + 1)).

Lemma kmat_R : kmat vg (ofR x) (ofR y) = map ofR rmat.
Proof using VG LY.
  unfold kmat, rmat. rewrite ofR_length. fold n. rewrite map_map. apply map_ext_in. intros i Hi. apply in_seq in Hi.
  unfold ofR at 5. rewrite map_map. apply map_ext_in. intros j Hj. apply in_seq in Hj. unfold kent, gam.
  destruct (Nat.eqb_spec i n); [destruct (Nat.eqb j n); reflexivity|]. destruct (Nat.eqb_spec j n); [reflexivity|].
  destruct (Nat.eqb_spec i j).
  - change (XFin 0 = XFin (- 0)). apply f_equal. ring.
  - rewrite !ofR_get by (unfold n in *; lia). rewrite dist_R, VG by apply rdist_pos. reflexivity.
Qed.

Lemma eps_R : n_lit 1 10 = (XFin (1 / 10 ^ 10) : XR).
Proof. change (n_lit (O := XR) 1 10) with (xdiv (XFin 1) (XFin (IZR (10 ^ Z.of_nat 10)))). simpl xdiv. rewrite Req_bool_false by lra. f_equal. simpl. field. Qed.

Lemma kvec_R p q : kvec vg (ofR x) (ofR y) (XFin p : XR) (XFin q : XR) = ofR (rvec p q).
Proof using VG LY.
  unfold kvec, rvec. rewrite ofR_length. fold n. unfold ofR at 5. rewrite map_map. apply map_ext_in. intros i Hi. apply in_seq in Hi.
  unfold bent, gam0. destruct (Nat.eqb_spec i n); [reflexivity|]. cbv zeta. rewrite !ofR_get by (unfold n in *; lia). rewrite dist_R, eps_R.
  set (d := rdist _ _ _ _). assert (P : 0 <= d) by apply rdist_pos.
  change (n_leb (n_abs (XFin d : XR)) (XFin (1 / 10 ^ 10) : XR)) with (Rle_bool (Rabs d) (1 / 10 ^ 10)).
  rewrite Rabs_pos_eq by auto. destruct (Rle_dec d (1 / 10 ^ 10)).
  - rewrite Rle_bool_true by auto. change (XFin 0 = XFin (- 0)). apply f_equal. ring.
  - rewrite Rle_bool_false by lra. rewrite VG by auto. reflexivity.
Qed.

Lemma rmat_square : square (n + 1) rmat.
Proof using. clear VG LY.
  unfold square, rmat. split; [rewrite map_length, seq_length; reflexivity|].
  intros r Hr. apply in_map_iff in Hr as (i & <- & _). rewrite map_length, seq_length. reflexivity.
Qed.
Lemma rmat_get i j : (i < n + 1)%nat -> (j < n + 1)%nat -> mget rmat i j = kent i j.
Proof using. clear VG LY. intros. unfold mget, rmat, rget. rewrite !get_map_seq by auto. reflexivity. Qed.

(** the linear system and the kriging system *)
Lemma kent_mv v i : (i < n + 1)%nat ->
  mv (n + 1) kent v i = if Nat.eqb i n then tot v n else v n - tot (fun j => gam g x y i j * v j) n.
Proof using. clear VG LY.
  intros Hi. unfold mv. rewrite Nat.add_1_r, tot_S. unfold kent.
  destruct (Nat.eqb_spec i n) as [->|NE].
  - rewrite Nat.eqb_refl. rewrite (tot_ext _ v); [ring|]. intros k Hk. destruct (Nat.eqb_spec k n); [lia|ring].
  - rewrite Nat.eqb_refl. rewrite (tot_ext _ (fun j => (-1) * (gam g x y i j * v j))); [rewrite tot_scal; ring|].
    intros k Hk. destruct (Nat.eqb_spec k n); [lia|ring].
Qed.
Lemma sys_iff p q v : krige_sys g x y p q v (v n) <-> forall i, (i < n + 1)%nat -> mv (n + 1) kent v i = bent p q i.
Proof using. clear VG LY.
  unfold krige_sys. fold n. split.
  - intros [H1 H2] i Hi. rewrite kent_mv by auto. unfold bent. destruct (Nat.eqb_spec i n); [exact H1|]. specialize (H2 i ltac:(lia)). lra.
  - intros H. split.
    + specialize (H n ltac:(lia)). rewrite kent_mv in H by lia. unfold bent in H. rewrite Nat.eqb_refl in H. exact H.
    + intros i Hi. specialize (H i ltac:(lia)). rewrite kent_mv in H by lia. unfold bent in H. destruct (Nat.eqb_spec i n); [lia|]. lra.
Qed.
Lemma sys_ext p q v w mu : (forall i, (i < n)%nat -> v i = w i) -> krige_sys g x y p q v mu -> krige_sys g x y p q w mu.
Proof using. clear VG LY.
  intros E [H1 H2]. fold n in H1, H2. split; fold n.
  - rewrite <- H1. apply tot_ext. intros. symmetry. auto.
  - intros i Hi. rewrite <- (H2 i Hi). f_equal. apply tot_ext. intros. rewrite E by auto. reflexivity.
Qed.
(** weights and multiplier as one vector *)
Definition ext_vec (w : nat -> R) (mu : R) (i : nat) : R := if Nat.eqb i n then mu else w i.
Lemma ext_vec_n w mu : ext_vec w mu n = mu.
Proof using. clear VG LY. unfold ext_vec. rewrite Nat.eqb_refl. reflexivity. Qed.
Lemma ext_vec_i w mu i : (i < n)%nat -> ext_vec w mu i = w i.
Proof using. clear VG LY. intros. unfold ext_vec. destruct (Nat.eqb_spec i n); [lia|reflexivity]. Qed.

Lemma regular_iff : regular g x y <-> ~ exists v, kernel (n + 1) kent v.
Proof using. clear VG LY.
  split.
  - intros RG (v & (i & Hi & NZ) & HK). destruct (RG v (v n)) as [A B].
    + specialize (HK n ltac:(lia)). rewrite kent_mv, Nat.eqb_refl in HK by lia. exact HK.
    + intros j Hj. fold n in Hj. specialize (HK j ltac:(lia)). rewrite kent_mv in HK by lia. destruct (Nat.eqb_spec j n); [lia|]. fold n. lra.
    + apply NZ. destruct (Nat.eq_dec i n) as [EN|]; [rewrite EN; exact B|apply A; fold n; lia].
  - intros NK w mu H1 H2. fold n in H1, H2. fold n.
    assert (Z : forall i, (i < n + 1)%nat -> ext_vec w mu i = 0).
    { intros i Hi. destruct (Req_dec (ext_vec w mu i) 0) as [|NZ]; auto. exfalso. apply NK. exists (ext_vec w mu). split; [exists i; auto|].
      intros j Hj. rewrite kent_mv by auto. rewrite ext_vec_n.
      rewrite (tot_ext (ext_vec w mu) w) by (intros; apply ext_vec_i; auto).
      rewrite (tot_ext (fun k => gam g x y j k * ext_vec w mu k) (fun k => gam g x y j k * w k)) by (intros; rewrite ext_vec_i by auto; reflexivity).
      destruct (Nat.eqb_spec j n); [exact H1|]. specialize (H2 j ltac:(lia)). lra. }
    split; [|rewrite <- (ext_vec_n w mu); apply Z; lia]. intros i Hi. rewrite <- (ext_vec_i w mu i Hi). apply Z. lia.
Qed.

(** uniqueness *)
Lemma sys_unique p q w mu w' mu' : regular g x y -> krige_sys g x y p q w mu -> krige_sys g x y p q w' mu' ->
  (forall i, (i < n)%nat -> w i = w' i) /\ mu = mu'.
Proof using. clear VG LY.
  intros RG [H1 H2] [H1' H2']. fold n in H1, H2, H1', H2'. destruct (RG (fun i => w i - w' i) (mu - mu')) as [A B].
  - fold n. rewrite (tot_ext _ (fun i => w i + (-1) * w' i)) by (intros; ring). rewrite tot_add, tot_scal. lra.
  - fold n. intros i Hi. rewrite (tot_ext _ (fun j => gam g x y i j * w j + (-1) * (gam g x y i j * w' j))) by (intros; ring).
    rewrite tot_add, tot_scal. specialize (H2 i Hi). specialize (H2' i Hi). lra.
  - fold n in A. split; [intros i Hi; specialize (A i Hi); lra|lra].
Qed.
End Sys.
