(** * Three samples and a window of two: scores computed by hand *)
From Coq Require Import List ZArith Bool Lia Arith Reals Lra.
From Flocq Require Import Core.
From Verif Require Import Base Num NumList NpOps RealSpec RealStat MinMax_model Stft_model Stft_spec Stft_proofs SpecGram_model SpecGram_spec SpecGram_proofs SpecGram_proofs2 SpecGram_proofs3.
Import ListNotations.
Local Open Scope nat_scope.

Definition ones : list R := [1; 1]%R.

Lemma ones_norm : norm2 ones = 2%R.
Proof. unfold norm2, ones. cbn. ring. Qed.

Lemma fsum_two trig u v k : fsum trig 2 [u; v] k = (u * trig 0 + v * trig (PI * INR k))%R.
Proof.
  unfold fsum. cbn [seq map rsum fold_right]. unfold rget, get. cbn [nth INR].
  replace (2 * PI * INR k * 0 / (1 + 1))%R with 0%R by field. replace (2 * PI * INR k * 1 / (1 + 1))%R with (PI * INR k)%R by field. ring.
Qed.
Lemma power_two u v : rpower ones [u; v] 2 0 = ((u + v) * (u + v))%R /\ rpower ones [u; v] 2 1 = ((u - v) * (u - v))%R.
Proof.
  unfold rpower, ones. change (map2 Rmult [u; v] [1; 1]%R) with [(u * 1)%R; (v * 1)%R]. rewrite !fsum_two. cbn [INR].
  rewrite !Rmult_0_r, !Rmult_1_r, cos_0, sin_0, cos_PI, sin_PI. split; ring.
Qed.
Lemma psd_two u v k : k < 2 -> psd 1 (ofR ones) (ofR [u; v]) 2 k = (XFin ((if k =? 0 then (u + v) * (u + v) else (u - v) * (u - v)) / 2)%R : XR).
Proof.
  intros Hk. rewrite psd_R by (rewrite ?ones_norm; cbn; auto; lra). f_equal. unfold rpsd. rewrite ones_norm. destruct (power_two u v) as [E0 E1].
  destruct k as [|[|]]; [| |lia]; cbn [Nat.eqb]; rewrite ?E0, ?E1; unfold row_factor; cbn [doubled Nat.eqb negb Nat.even andb]; unfold doubled; cbn; field.
Qed.

Definition three (x y z thr : R) : res (stft_result XR) :=
  stft_classification (mpl_env 1 true) (ofR [x; y; z]) 2 (XFin thr : XR) (XFin (1/4)%R : XR) (Some 0%Z) (Some 1%Z) None false (Some (ofR ones)) None None.

Lemma mean_one (x : R) : n_mean [(XFin x : XR)] = (XFin x : XR).
Proof. change [(XFin x : XR)] with (ofR [x]). rewrite n_mean_ofR by discriminate. unfold rmean. cbn. f_equal. field. Qed.

Lemma three_scores x y z thr : (x + y <> 0)%R -> (x - y <> 0)%R ->
  let score := ((y + z) * (y + z) / ((x + y) * (x + y)) - (y - z) * (y - z) / ((x - y) * (x - y)))%R in
  exists r, three x y z thr = Ok r /\ nget (r_P_sum_diff r) 1 = (XFin score : XR) /\ get false (r_wet r) 1 = Rlt_bool thr score.
Proof.
  intros NZ1 NZ2 score. assert (NP : 0 < 2) by lia. assert (HW : fits 2 (Some (ofR ones))) by reflexivity.
  destruct (stft_correct XRsem (mpl_env 1 true) (ofR [x; y; z]) 2 (XFin thr : XR) (XFin (1/4)%R : XR) 0 1 (Some (ofR ones)) None None _ _ _
    (mpl_uses 1 true 2 (Some (ofR ones)) NP HW (ofR [x; y; z]) None) (the_grid_nonempty _ _ _ _) (the_grid_rect _ _ _ _) (the_grid_rows _ _ _ _)) as (r & Er & _ & _ & Hr); [cbn; lia|].
  exists r. split; [exact Er|]. destruct (Hr 1) as [V W]; [cbn; lia|]. clear Hr. cbn [val XRsem] in V.
  change (Nat.max 2 (length (ofR [x; y; z])) - 2 + 1) with (length (ofR [x; y; z]) - 2 + 1) in *.
  assert (P : forall k t, k < 2 -> t < 2 -> power (the_grid 1 2 (Some (ofR ones)) (ofR [x; y; z])) (length (ofR [x; y; z])) (length (ofR [x; y; z]) - 2 + 1) k t =
     psd 1 (ofR ones) (slice t (t + 2) (ofR [x; y; z])) 2 k).
  { intros k t Hk Ht. rewrite power_window by (cbn; lia). change ((2 - 1) / 2) with 0. change (length (ofR [x; y; z]) - 2 + 1) with 2. rewrite Nat.sub_0_r. cbn [Nat.leb andb Nat.add].
    destruct (Nat.ltb_spec t 2); [reflexivity|lia]. }
  assert (Q0 : forall k, k < 2 -> power (the_grid 1 2 (Some (ofR ones)) (ofR [x; y; z])) (length (ofR [x; y; z])) (length (ofR [x; y; z]) - 2 + 1) k 0 = (XFin ((if k =? 0 then (x + y) * (x + y) else (x - y) * (x - y)) / 2)%R : XR)).
  { intros k Hk. rewrite P by lia. change (slice 0 (0 + 2) (ofR [x; y; z])) with (ofR [x; y]). apply psd_two; auto. }
  assert (Q1 : forall k, k < 2 -> power (the_grid 1 2 (Some (ofR ones)) (ofR [x; y; z])) (length (ofR [x; y; z])) (length (ofR [x; y; z]) - 2 + 1) k 1 = (XFin ((if k =? 0 then (y + z) * (y + z) else (y - z) * (y - z)) / 2)%R : XR)).
  { intros k Hk. rewrite P by lia. change (slice 1 (1 + 2) (ofR [x; y; z])) with (ofR [y; z]). apply psd_two; auto. }
  assert (D : forall k, k < 2 -> dry_level (the_grid 1 2 (Some (ofR ones)) (ofR [x; y; z])) (length (ofR [x; y; z])) (length (ofR [x; y; z]) - 2 + 1) 0 1 k = (XFin ((if k =? 0 then (x + y) * (x + y) else (x - y) * (x - y)) / 2)%R : XR)).
  { intros k Hk. unfold dry_level. cbn [Nat.sub seq map]. rewrite Q0 by auto. cbn [filter n_isnan XR xisnan negb]. apply mean_one. }
  assert (F0 : nget (the_freqs 1 2) 0 = (XFin 0 : XR)) by (unfold nget, the_freqs, get; cbn; f_equal; field).
  assert (F1 : nget (the_freqs 1 2) 1 = (XFin (1/2)%R : XR)) by (unfold nget, the_freqs, get; cbn; f_equal; field).
  assert (L1 : filter (fun k => n_leb (nget (the_freqs 1 2) k) (XFin (1/4)%R : XR)) (seq 0 (length (the_freqs 1 2))) = [0]).
  { change (length (the_freqs 1 2)) with 2. cbn [seq filter]. rewrite F0, F1. cbn [n_leb XR xleb]. rewrite Rle_bool_true, Rle_bool_false by lra. reflexivity. }
  assert (L2 : filter (fun k => n_ltb (XFin (1/4)%R : XR) (nget (the_freqs 1 2) k)) (seq 0 (length (the_freqs 1 2))) = [1]).
  { change (length (the_freqs 1 2)) with 2. cbn [seq filter]. rewrite F0, F1. cbn [n_ltb XR xltb]. rewrite Rlt_bool_false, Rlt_bool_true by lra. reflexivity. }
  unfold band in V, W. rewrite L1, L2 in V, W. cbn [map] in V, W. rewrite !D, !Q1 in V, W by lia. cbn [Nat.eqb] in V, W.
  assert (DV : forall p q, (q <> 0)%R -> n_div (XFin (p / 2)%R : XR) (XFin (q / 2)%R : XR) = (XFin (p / q)%R : XR)).
  { intros p q Hq. cbn. rewrite Req_bool_false by lra. f_equal. field. auto. }
  rewrite !DV in V, W by (apply Rmult_integral_contrapositive_currified; auto). rewrite !mean_one in V, W. split; [exact V|exact W].
Qed.

(** the same record three units lower is classified differently *)
Theorem offset_changes_flags : exists r r', three 0 2 4 1 = Ok r /\
  stft_classification (mpl_env 1 true) (raised_by (-3) (ofR [0; 2; 4]%R)) 2 (XFin 1 : XR) (XFin (1/4)%R : XR) (Some 0%Z) (Some 1%Z) None false (Some (ofR ones)) None None = Ok r' /\
  get false (r_wet r) 1 = true /\ get false (r_wet r') 1 = false.
Proof.
  destruct (three_scores 0 2 4 1) as (r & Er & _ & Wr); [lra|lra|]. destruct (three_scores (-3) (-1) 1 1) as (r' & Er' & _ & Wr'); [lra|lra|].
  exists r, r'. split; [exact Er|]. split.
  - replace (raised_by (-3) (ofR [0; 2; 4]%R)) with (ofR [-3; -1; 1]%R); [exact Er'|]. unfold raised_by, ofR. cbn [map n_add XR xadd]. repeat f_equal; ring.
  - rewrite Wr, Wr'. split; [apply Rlt_bool_true; lra|apply Rlt_bool_false; lra].
Qed.
