(** * Proofs about the coverage mask *)
From Coq Require Import List Bool Reals Lra Lia Arith.
From Verif Require Import Base Coverage_model Coverage_spec.
Import ListNotations.
Local Open Scope nat_scope.

Section P.
Context {N : Type} (buffer : N -> ((N * N) * (N * N)) -> N * N -> bool).

Lemma get_combine {A B} (da : A) (db : B) l k i : i < length l -> i < length k -> get (da, db) (combine l k) i = (get da l i, get db k i).
Proof.
  revert k i. induction l as [|a l IH]; intros [|b k] i H1 H2; cbn in *; try lia. destruct i; auto. apply (IH k i); lia.
Qed.
Theorem mask_correct links (xg yg : array2 N) d : arr_ok xg -> arr_ok yg -> a_rows yg = a_rows xg -> a_cols yg = a_cols xg ->
  exists m, calc_coverage_mask true buffer links xg yg d = Ok m /\ a_rows m = a_rows xg /\ a_cols m = a_cols xg /\ arr_ok m /\
  forall i j n, i < a_rows xg -> j < a_cols xg ->
    (elt false m i j = true <-> exists c, In c links /\ buffer d (link_of c) (elt n xg i j, elt n yg i j) = true).
Proof.
  intros Hx Hy R C. unfold arr_ok in *. unfold calc_coverage_mask. cbn [negb]. unfold reshape.
  rewrite map_length, combine_length, Hx, Hy, R, C, Nat.min_id, Nat.eqb_refl.
  eexists; split; [reflexivity|]. cbn [a_rows a_cols a_flat]. do 2 (split; [reflexivity|]).
  split; [rewrite map_length, combine_length, Hx, Hy, R, C; apply Nat.min_id|]. intros i j n Hi Hj. unfold elt. cbn [a_rows a_cols a_flat]. rewrite C.
  assert (Hk : i * a_cols xg + j < a_rows xg * a_cols xg) by nia. set (k := i * a_cols xg + j) in *.
  rewrite (get_map _ (n, n)) by (rewrite combine_length, Hx, Hy, R, C, Nat.min_id; auto).
  rewrite get_combine by (rewrite ?Hx, ?Hy, ?R, ?C; auto). set (p := (get n (a_flat xg) k, get n (a_flat yg) k)).
  transitivity (existsb (fun b => b p) (map (fun c => buffer d (lon_a c, lat_a c, (lon_b c, lat_b c))) links) = true).
  { destruct (existsb _ _); intuition. }
  rewrite existsb_exists. split.
  - intros (b & Hb & E). apply in_map_iff in Hb as (c & <- & Hc). eauto.
  - intros (c & Hc & E). eexists. split; [apply in_map; exact Hc|]. exact E.
Qed.
Theorem mask_removed links (xg yg : array2 N) d : calc_coverage_mask false buffer links xg yg d = Err AttributeError.
Proof. reflexivity. Qed.
Theorem mask_small_y links (xg yg : array2 N) d : arr_ok xg -> arr_ok yg -> a_rows yg * a_cols yg < a_rows xg * a_cols xg ->
  calc_coverage_mask true buffer links xg yg d = Err ValueError.
Proof.
  unfold arr_ok. intros Hx Hy H. unfold calc_coverage_mask, reshape. cbn [negb]. rewrite map_length, combine_length, Hx, Hy.
  destruct (Nat.eqb_spec (Nat.min (a_rows xg * a_cols xg) (a_rows yg * a_cols yg)) (a_rows xg * a_cols xg)); auto. lia.
Qed.
(** more links, larger buffers: more coverage *)
Theorem mask_monotone links links' (xg yg : array2 N) d d' : arr_ok xg -> arr_ok yg -> a_rows yg = a_rows xg -> a_cols yg = a_cols xg ->
  incl links links' -> (forall l p, buffer d l p = true -> buffer d' l p = true) ->
  exists m m', calc_coverage_mask true buffer links xg yg d = Ok m /\ calc_coverage_mask true buffer links' xg yg d' = Ok m' /\
  forall i j, i < a_rows xg -> j < a_cols xg -> elt false m i j = true -> elt false m' i j = true.
Proof.
  intros Hx Hy R C HI HB. destruct (mask_correct links xg yg d Hx Hy R C) as (m & E & _ & _ & _ & H). destruct (mask_correct links' xg yg d' Hx Hy R C) as (m' & E' & _ & _ & _ & H').
  exists m, m'. do 2 (split; auto). intros i j Hi Hj Ht.
  assert (L : 0 < length (a_flat xg)) by (rewrite Hx; nia).
  assert (n : N). { destruct (a_flat xg) as [|n l]; [cbn in L; lia|exact n]. }
  apply (H' i j n Hi Hj). apply (H i j n Hi Hj) in Ht as (c & Hc & E1). exists c. split; auto.
Qed.
End P.

Lemma near_mono d d' l p : (d <= d')%R -> near d l p -> near d' l p.
Proof.
  intros H [P (t & Ht & E)]. split; [lra|]. exists t. split; auto. apply Rle_trans with (1 := E). apply Rmult_le_compat; lra.
Qed.
Theorem mask_exact (buffer : R -> ((R * R) * (R * R)) -> R * R -> bool) links links' (xg yg : array2 R) d d' :
  (forall d l p, buffer d l p = true <-> near d l p) -> arr_ok xg -> arr_ok yg -> a_rows yg = a_rows xg -> a_cols yg = a_cols xg ->
  incl links links' -> (d <= d')%R ->
  exists m m', calc_coverage_mask true buffer links xg yg d = Ok m /\ calc_coverage_mask true buffer links' xg yg d' = Ok m' /\
  (forall i j, i < a_rows xg -> j < a_cols xg ->
    (elt false m i j = true <-> exists c, In c links /\ near d (link_of c) (elt 0%R xg i j, elt 0%R yg i j))) /\
  (forall i j, i < a_rows xg -> j < a_cols xg -> elt false m i j = true -> elt false m' i j = true).
Proof.
  intros HB Hx Hy R C HI Hd. destruct (mask_monotone buffer links links' xg yg d d' Hx Hy R C HI) as (m & m' & E & E' & M).
  { intros l p. rewrite !HB. apply near_mono. auto. }
  destruct (mask_correct buffer links xg yg d Hx Hy R C) as (m0 & E0 & _ & _ & _ & H). rewrite E in E0. injection E0 as <-.
  exists m, m'. do 2 (split; auto). split; auto. intros i j Hi Hj. rewrite (H i j 0%R Hi Hj). split; intros (c & Hc & X); exists c; split; auto; apply HB; auto.
Qed.

(** the exact buffer exists: distance to the closest point of the segment *)
From Flocq Require Import Core.
Local Open Scope R_scope.
Definition closest (l : (R * R) * (R * R)) (p : R * R) : R :=
  let vx := fst (snd l) - fst (fst l) in let vy := snd (snd l) - snd (fst l) in
  Rmax 0 (Rmin 1 (((fst p - fst (fst l)) * vx + (snd p - snd (fst l)) * vy) / (vx * vx + vy * vy))).
Definition exact_buffer (d : R) (l : (R * R) * (R * R)) (p : R * R) : bool :=
  Rlt_bool 0 d && Rle_bool (sqdist p (on_segment l (closest l p))) (d * d).
Lemma closest_min l p t : 0 <= t <= 1 -> sqdist p (on_segment l (closest l p)) <= sqdist p (on_segment l t).
Proof.
  intros Ht. unfold sqdist, on_segment, closest. cbn [fst snd]. destruct l as [[ax ay] [bx by_]], p as [px py]. cbn [fst snd].
  set (vx := bx - ax). set (vy := by_ - ay). set (q := vx * vx + vy * vy). set (s := ((px - ax) * vx + (py - ay) * vy) / q). set (t0 := Rmax 0 (Rmin 1 s)).
  assert (Q0 : 0 <= q) by (unfold q; nra). destruct (Req_dec q 0) as [Z|Z].
  - assert (vx = 0 /\ vy = 0) as [-> ->] by (unfold q in Z; split; nra). lra.
  - assert (E : (px - ax) * vx + (py - ay) * vy = s * q) by (unfold s; field; auto).
    assert (D : forall u, (px - (ax + u * vx)) * (px - (ax + u * vx)) + (py - (ay + u * vy)) * (py - (ay + u * vy)) =
      (px - ax) * (px - ax) + (py - ay) * (py - ay) - 2 * u * (s * q) + u * u * q).
    { intros u. rewrite <- E. unfold q. ring. }
    rewrite !D.
    assert (M : (t0 - s) * (t0 - s) <= (t - s) * (t - s)).
    { destruct (Rle_dec 1 s).
      - assert (t0 = 1) as -> by (unfold t0; rewrite Rmin_left, Rmax_right; lra). nra.
      - destruct (Rle_dec 0 s).
        + assert (t0 = s) as -> by (unfold t0; rewrite Rmin_right, Rmax_right; lra). replace ((s - s) * (s - s)) with 0 by ring. apply Rle_0_sqr.
        + assert (t0 = 0) as -> by (unfold t0; rewrite Rmin_right, Rmax_left; lra). nra. }
    assert (q * ((t0 - s) * (t0 - s)) <= q * ((t - s) * (t - s))) by (apply Rmult_le_compat_l; auto). nra.
Qed.
Theorem exact_buffer_near d l p : exact_buffer d l p = true <-> near d l p.
Proof.
  unfold exact_buffer, near. destruct (Rlt_bool_spec 0 d); cbn [andb]; [|split; [discriminate|intros [? _]; lra]].
  destruct (Rle_bool_spec (sqdist p (on_segment l (closest l p))) (d * d)) as [L|L]; split; auto; try discriminate.
  - intros _. split; auto. exists (closest l p). split; auto. unfold closest. split; [apply Rmax_l|]. apply Rmax_lub; [lra|apply Rmin_l].
  - intros [_ (t & Ht & E)]. pose proof (closest_min l p t Ht). lra.
Qed.
Theorem mask_exact_buffer links links' (xg yg : array2 R) d d' :
  arr_ok xg -> arr_ok yg -> a_rows yg = a_rows xg -> a_cols yg = a_cols xg -> incl links links' -> d <= d' ->
  exists m m', calc_coverage_mask true exact_buffer links xg yg d = Ok m /\ calc_coverage_mask true exact_buffer links' xg yg d' = Ok m' /\
  (forall i j, (i < a_rows xg)%nat -> (j < a_cols xg)%nat ->
    (elt false m i j = true <-> exists c, In c links /\ near d (link_of c) (elt 0%R xg i j, elt 0%R yg i j))) /\
  (forall i j, (i < a_rows xg)%nat -> (j < a_cols xg)%nat -> elt false m i j = true -> elt false m' i j = true).
Proof. apply mask_exact. apply exact_buffer_near. Qed.
