(** * The reference level stays between bounds of the levels, in binary64 *)
From Coq Require Import List ZArith Bool Reals Lia Lra Permutation.
From Flocq Require Import Core BinarySingleNaN.
From Verif Require Import Base Num NumF64 NumList Median NearbyRain_model NearbyRain_spec NearbyRain_proofs BaselineFloat_proofs.
Import ListNotations.
Local Open Scope nat_scope.

Section Bounds.
Variables (lo hi : F64).
Hypotheses (D1 : n_isinf (n_add lo lo) = false) (D2 : n_isinf (n_add hi hi) = false).
Lemma mid_within (x y : F64) : within lo hi x -> within lo hi y -> within lo hi (n_div (n_add x y) (n_ofZ 2)).
Proof using D1 D2.
  intros [X1 X2] [Y1 Y2].
  assert (FIN : exists a b r s, f_val lo = XFin a /\ f_val hi = XFin b /\ f_val x = XFin r /\ f_val y = XFin s /\ (a <= r <= b)%R /\ (a <= s <= b)%R).
  { rewrite (val_leb _ F64sem) in X1, X2, Y1, Y2. rewrite (val_isinf _ F64sem), (val_add _ F64sem) in D1, D2.
    change (val F64sem) with f_val in *. change (rnd F64sem) with f_rnd in *.
    destruct (f_val lo) as [| |a|]; try discriminate D1; try discriminate X1.
    destruct (f_val hi) as [| |b|]; try discriminate D2; [destruct (f_val x); discriminate| ].
    destruct (f_val x) as [| |r|]; try discriminate. destruct (f_val y) as [| |s|]; try discriminate.
    exists a, b, r, s. cbn in X1, X2, Y1, Y2.
    destruct (Rle_bool_spec a r), (Rle_bool_spec r b), (Rle_bool_spec a s), (Rle_bool_spec s b); try discriminate. repeat split; auto. }
  destruct FIN as (a & b & r & s & A & B & X & Y & Rr & Rs).
  pose proof (double_exact lo a A D1) as DA. pose proof (double_exact hi b B D2) as DB.
  assert (RA : f_rnd (XFin a) = XFin a) by (rewrite <- A; apply f_rnd_val). assert (RB : f_rnd (XFin b) = XFin b) by (rewrite <- B; apply f_rnd_val).
  assert (V2 : f_val (n_ofZ 2 : F64) = XFin 2) by (change (val F64sem (n_ofZ 2) = XFin 2); rewrite (val_ofZ _ F64sem) by (simpl; lia); reflexivity).
  assert (E : f_val (n_div (n_add x y) (n_ofZ 2)) = f_rnd (xdiv (f_rnd (XFin (r + s))) (XFin 2))).
  { change (val F64sem (n_div (n_add x y) (n_ofZ 2)) = f_rnd (xdiv (f_rnd (XFin (r + s))) (XFin 2))).
    rewrite (val_div _ F64sem) by (change (val F64sem) with f_val; rewrite V2; intros K; injection K; lra).
    rewrite (val_add _ F64sem). change (val F64sem) with f_val. rewrite V2, X, Y. reflexivity. }
  assert (L1 : xleb (XFin (a + a)) (f_rnd (XFin (r + s))) = true) by (rewrite <- DA; apply f_rnd_mono; cbn; apply Rle_bool_true; lra).
  assert (L2 : xleb (f_rnd (XFin (r + s))) (XFin (b + b)) = true) by (rewrite <- DB; apply f_rnd_mono; cbn; apply Rle_bool_true; lra).
  destruct (f_rnd (XFin (r + s))) as [| |q|]; try discriminate. cbn in L1, L2.
  destruct (Rle_bool_spec (a + a) q) as [Q1|]; try discriminate. destruct (Rle_bool_spec q (b + b)) as [Q2|]; try discriminate.
  unfold xdiv in E. rewrite Req_bool_false in E by lra.
  apply (within_val lo hi _ a b A B); rewrite E.
  - rewrite <- RA. apply f_rnd_mono. cbn. apply Rle_bool_true. lra.
  - rewrite <- RB. apply f_rnd_mono. cbn. apply Rle_bool_true. lra.
Qed.

Lemma median_within (l : list F64) m : l <> [] -> (forall x, In x l -> within lo hi x) -> is_median l m -> within lo hi m.
Proof using D1 D2.
  intros Hn H (s & P & _ & H1 & H2).
  assert (G : forall i, i < length s -> within lo hi (get n_nan s i)) by (intros i Hi; apply H, (Permutation_in _ P), get_In; auto).
  assert (L : length s <> 0) by (rewrite (Permutation_length P); destruct l; [congruence|simpl; lia]).
  destruct (Nat.Even_or_Odd (length s)) as [[k E]|[k E]].
  - rewrite (H2 (k - 1)) by lia. replace (k - 1 + 1) with k by lia. apply mid_within; apply G; lia.
  - rewrite (H1 k) by lia. apply G. lia.
Qed.

Lemma reference_within (pmin pmax wet : list F64) n mp :
  length pmin = length wet -> length pmax = length wet -> 1 <= mp <= n -> n <= length wet ->
  exists pref, nearby_determine_reference_level pmin pmax wet n mp = Ok pref /\
  forall t, t < length wet -> mp <= length (dry_levels pmin pmax wet n t) ->
    (forall k, t < k + n -> k <= t -> n_eqb (get n_nan wet k) (n_ofZ 0) = true -> n_isnan (level pmin pmax k) = false ->
       (n_leb lo (get n_nan pmin k) = true /\ n_leb (get n_nan pmin k) hi = true) /\
       (n_leb lo (get n_nan pmax k) = true /\ n_leb (get n_nan pmax k) hi = true)) ->
    n_leb lo (get n_nan pref t) = true /\ n_leb (get n_nan pref t) hi = true.
Proof using D1 D2.
  intros L1 L2 H1 H2. destruct (reference_level F64sem pmin pmax wet n mp L1 L2 H1 H2) as (pref & E & _ & G).
  exists pref. split; [exact E|]. intros t Ht Hm H. destruct (G t Ht) as [_ M]. specialize (M Hm).
  apply (median_within (dry_levels pmin pmax wet n t)); auto.
  - intros C. rewrite C in Hm. cbn in Hm. lia.
  - intros x Hx. unfold dry_levels in Hx. apply in_map_iff in Hx as (k & <- & Hk). apply filter_In in Hk as [Hk W]. apply in_seq in Hk. apply andb_prop in W as [W N].
    apply negb_true_iff in N. destruct (H k ltac:(lia) ltac:(lia) W N) as [A B]. apply mid_within; [exact A|exact B].
Qed.
End Bounds.
