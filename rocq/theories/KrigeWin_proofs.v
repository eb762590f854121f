(** Proofs about kriging with the nearest stations only. *)
From Coq Require Import List ZArith Bool Reals Lra Lia Permutation.
From Flocq Require Import Core.Raux.
From Verif Require Import Base Num NumF64 NumList NpOps RealSpec RealStat SpecGram_proofs5 Idw_model Idw_spec Idw_proofs Kriging_model Kriging_proofs
  OrdKrige_model LinAlg OrdKrige_spec OrdKrige_proofs OrdKrige_proofs2 OrdKrige_proofs3 KrigeWin_model KrigeWin_spec.
Import ListNotations.
Local Open Scope R_scope.

Lemma list_seq {A} (d : A) l : l = map (get d l) (seq 0 (List.length l)).
Proof.
  apply get_ext with (d := d); [rewrite map_length, seq_length; reflexivity|]. intros i Hi. rewrite get_map_seq by auto. reflexivity.
Qed.
Lemma only_length used x : List.length (only used x) = List.length used.
Proof. apply map_length. Qed.
Lemma only_get used x i : (i < List.length used)%nat -> rget (only used x) i = rget x (get 0%nat used i).
Proof. intros H. unfold only, rget at 1. rewrite get_map with (d := 0%nat) by auto. reflexivity. Qed.
Lemma nodup_get (l : list nat) i j : NoDup l -> (i < List.length l)%nat -> (j < List.length l)%nat -> get 0%nat l i = get 0%nat l j -> i = j.
Proof. intros ND Hi Hj E. apply (proj1 (NoDup_nth l 0%nat) ND); auto. Qed.
Lemma combine_ofR x y : combine (ofR x) (ofR y) = map ofP (combine x y).
Proof. revert y. induction x as [|a x IH]; intros [|b y]; try reflexivity. cbn [ofR map combine]. fold (ofR x) (ofR y). rewrite IH. reflexivity. Qed.
Lemma combine_get (x y : list R) i : List.length y = List.length x -> get (0, 0) (combine x y) i = (rget x i, rget y i).
Proof. intros L. unfold get. rewrite combine_nth by auto. reflexivity. Qed.

(** a solver from an inverse *)
Definition solve_by (inv : list (list XR) -> res (list (list XR))) (A : list (list XR)) (b : list XR) : res (list XR) :=
  do B <- inv A; Ok (kweights B b).
Lemma solve_by_ok inv : exact_inv inv -> exact_solve (solve_by inv).
Proof.
  intros I N A b SQ LB. destruct (I N A SQ) as [(B & SB & E & IB)|(E & K)]; [left|right; unfold solve_by; rewrite E; auto].
  unfold solve_by. rewrite E. cbn [bind]. exists (map (fun i => mv N (mget B) (rget b) i) (seq 0 N)).
  split; [rewrite map_length, seq_length; reflexivity|]. split; [|split].
  - f_equal. destruct SB as [LB' RB]. apply get_ext with (d := (n_nan : XR)).
    + unfold kweights, ofR. rewrite !map_length, seq_length. exact LB'.
    + intros i Hi. unfold kweights in *. rewrite !map_length in Hi. rewrite get_map with (d := ([] : list XR)) by (rewrite map_length; auto).
      rewrite get_map with (d := ([] : list R)) by auto. rewrite ndot_R.
      rewrite ofR_get by (rewrite map_length, seq_length; lia). apply (f_equal XFin). unfold rget at 1. rewrite get_map_seq by lia.
      apply (tot_rget _ _ N); [apply RB, get_In; auto|lia].
  - intros i Hi. rewrite <- (inverse_solves N (mget A) (mget B) (rget b) IB i Hi). apply mv_ext. intros j Hj. unfold rget at 1. rewrite get_map_seq by auto. reflexivity.
  - intros (v & (i & Hi & NZ) & K). apply NZ. apply (inverse_injective N (mget A) (mget B)); auto.
Qed.

Section Win.
Variables (vg : XR -> XR) (g : R -> R) (x y : list R).
Variable solve : list (list XR) -> list XR -> res (list XR).
Variable query : list (XR * XR) -> XR * XR -> nat -> XR -> option XR -> list (XR * nat).
Variable k : nat.
Hypothesis VG : real_variogram vg g.
Hypothesis LY : List.length y = List.length x.
Hypothesis SOL : exact_solve solve.
Hypothesis QOK : query_ok query.
Notation n := (List.length x).
Hypothesis K2 : (2 <= k)%nat.
Hypothesis KN : (k <= n)%nat.

Lemma query_used p q : exists used, nearest_stations x y k p q used /\
  query (combine (ofR x) (ofR y)) (XFin p : XR, XFin q : XR) k zero None = map (fun i => (XFin (rdist p q (rget x i) (rget y i)) : XR, i)) used.
Proof using LY QOK KN.
  clear VG SOL K2. destruct (QOK (combine x y) (p, q) k None) as (used & pad & N & E).
  assert (LC : @List.length rpt (combine x y) = n) by (unfold rpt; rewrite combine_length; lia). rewrite LC in N, E.
  assert (D : forall i, dist_to (combine x y) (p, q) i = rdist p q (rget x i) (rget y i)) by (intros; unfold dist_to; rewrite combine_get by auto; reflexivity).
  assert (LU : List.length used = k).
  { destruct (Forall_Exists_dec (fun i => In i used) (fun i => in_dec Nat.eq_dec i used) (seq 0 n)) as [F|X].
    - rewrite Forall_forall in F. pose proof (NoDup_incl_length (seq_NoDup n 0) F) as L. rewrite seq_length in L. pose proof (nn_count _ _ _ _ _ N). lia.
    - apply Exists_exists in X as (i & Hi & NI). apply in_seq in Hi. apply (nn_rest _ _ _ _ _ N i); [lia|exact NI|exact I]. }
  exists used. split.
  - split; [exact LU|]. split; [apply (nn_distinct _ _ _ _ _ N)|]. split; [intros i Hi; apply (nn_range _ _ _ _ _ N i Hi)|].
    intros i j Hi Hj NI. rewrite <- !D. apply (nn_rest _ _ _ _ _ N j Hj NI I). exact Hi.
  - rewrite combine_ofR. change (XFin p : XR, XFin q : XR) with (ofP (p, q)). change None with (ofU None). rewrite E, LU, Nat.sub_diag. cbn [repeat]. rewrite app_nil_r.
    apply map_ext. intros i. rewrite D. reflexivity.
Qed.

Section Point.
Variables (p q : R) (used : list nat).
Hypothesis NS : nearest_stations x y k p q used.
Notation xs := (only used x).
Notation ys := (only used y).
Lemma sel_in i : (i < k)%nat -> (get 0%nat used i < n)%nat.
Proof using NS. clear - NS. destruct NS as (L & _ & R & _). intros Hi. apply R. apply get_In. lia. Qed.
Lemma kent_sel i j : (i < k + 1)%nat -> (j < k + 1)%nat ->
  kent g x y (get 0%nat (used ++ [n]) i) (get 0%nat (used ++ [n]) j) = kent g xs ys i j.
Proof using NS.
  clear - NS. intros Hi Hj. destruct NS as (L & ND & RG & _).
  assert (G : forall m, (m < k + 1)%nat -> get 0%nat (used ++ [n]) m = if Nat.eqb m k then n else get 0%nat used m).
  { intros m Hm. unfold get. destruct (Nat.eqb_spec m k) as [->|NE]; [rewrite app_nth2 by lia; rewrite L, Nat.sub_diag; reflexivity|rewrite app_nth1 by lia; reflexivity]. }
  unfold kent. rewrite only_length, L, !G by auto.
  assert (NN : forall m, (m < k + 1)%nat -> Nat.eqb (if Nat.eqb m k then n else get 0%nat used m) n = Nat.eqb m k).
  { intros m Hm. destruct (Nat.eqb_spec m k); [apply Nat.eqb_refl|]. apply Nat.eqb_neq. pose proof (sel_in m ltac:(lia)). lia. }
  rewrite !NN by auto. destruct (Nat.eqb_spec i k), (Nat.eqb_spec j k); try reflexivity.
  unfold gam. rewrite !only_get by lia. destruct (Nat.eqb_spec i j) as [->|NE]; [rewrite Nat.eqb_refl; reflexivity|].
  destruct (Nat.eqb_spec (get 0%nat used i) (get 0%nat used j)) as [E|]; [|reflexivity]. apply nodup_get in E; auto; lia.
Qed.
Lemma submatrix_R : submatrix (kmat vg (ofR x) (ofR y)) (used ++ [n]) = map ofR (rmat g xs ys).
Proof using VG LY NS.
  clear SOL QOK K2 KN. rewrite (kmat_R vg g x y VG LY). unfold submatrix, rmat. destruct NS as (L & _ & RG & _).
  rewrite (list_seq 0%nat (used ++ [n])), app_length, only_length, L. cbn [List.length]. rewrite !map_map. apply map_ext_in. intros i Hi. apply in_seq in Hi.
  unfold ofR at 2. rewrite !map_map. apply map_ext_in. intros j Hj. apply in_seq in Hj.
  assert (SN : forall m, (m < k + 1)%nat -> (get 0%nat (used ++ [n]) m < n + 1)%nat).
  { intros m Hm. unfold get. destruct (Nat.eq_dec m k) as [->|NE]; [rewrite app_nth2 by lia; rewrite L, Nat.sub_diag; cbn; lia|].
    rewrite app_nth1 by lia. pose proof (sel_in m ltac:(lia)). unfold get in *. lia. }
  set (a := get 0%nat (used ++ [n]) i). set (b := get 0%nat (used ++ [n]) j).
  assert (Ha : (a < n + 1)%nat) by (apply SN; lia). assert (Hb : (b < n + 1)%nat) by (apply SN; lia).
  rewrite !get_map_seq by auto. rewrite ofR_get by (rewrite map_length, seq_length; auto). unfold rget. rewrite get_map_seq by auto.
  rewrite <- (kent_sel i j) by lia. reflexivity.
Qed.
Lemma bvec_R : map (fun d => if n_leb (n_abs d) (n_lit 1 10) then zero else n_opp (vg d))
    (map fst (map (fun i => (XFin (rdist p q (rget x i) (rget y i)) : XR, i)) used)) ++ [one] = ofR (rvec g xs ys p q).
Proof using VG NS.
  clear LY SOL QOK K2 KN. rewrite map_map. cbn [fst]. rewrite map_map. unfold rvec. destruct NS as (L & _). rewrite only_length, L, seq_app, map_app.
  unfold ofR at 1. rewrite map_app. f_equal.
  - rewrite (list_seq 0%nat used) at 1. rewrite L, !map_map. apply map_ext_in. intros i Hi. apply in_seq in Hi. unfold bent.
    rewrite only_length, L. destruct (Nat.eqb_spec i k); [lia|]. unfold gam0. rewrite !only_get by lia. cbv beta zeta. cbn [fst].
    set (d := rdist _ _ _ _). assert (P : 0 <= d) by apply rdist_pos. rewrite eps_R.
    change (n_leb (n_abs (XFin d : XR)) (XFin (1 / 10 ^ 10) : XR)) with (Rle_bool (Rabs d) (1 / 10 ^ 10)).
    rewrite Rabs_pos_eq by auto. destruct (Rle_dec d (1 / 10 ^ 10)).
    + rewrite Rle_bool_true by auto. change (XFin 0 = XFin (- 0)). apply f_equal. ring.
    + rewrite Rle_bool_false by lra. rewrite VG by auto. reflexivity.
  - cbn [seq map]. unfold bent. rewrite only_length, L. cbn [Nat.add]. rewrite Nat.eqb_refl. reflexivity.
Qed.
Lemma window_point_R z : List.length z = n ->
  query (combine (ofR x) (ofR y)) (XFin p : XR, XFin q : XR) k zero None = map (fun i => (XFin (rdist p q (rget x i) (rget y i)) : XR, i)) used ->
  let out := window_point vg solve query (kmat vg (ofR x) (ofR y)) (ofR x) (ofR y) (ofR z) k (XFin p : XR, XFin q : XR) in
  (regular g xs ys /\ exists w mu, krige_sys g xs ys p q w mu /\
     out = Ok (XFin (tot (fun i => w i * rget (only used z) i) k) : XR, XFin (tot (fun i => w i * gam0 g xs ys p q i) k - mu) : XR)) \/
  (~ regular g xs ys /\ out = Err OtherError).
Proof using VG LY SOL NS.
  clear QOK K2 KN. intros LZ EQ out. unfold out, window_point. rewrite EQ, ofR_length. rewrite bvec_R.
  rewrite (map_map (fun i => (XFin (rdist p q (rget x i) (rget y i)) : XR, i)) snd), (map_ext (fun i => snd (XFin (rdist p q (rget x i) (rget y i)) : XR, i)) (fun i => i)), map_id by reflexivity.
  rewrite submatrix_R. destruct NS as (L & ND & RG & _).
  assert (LX : List.length xs = k) by (rewrite only_length; exact L).
  assert (LV : List.length (rvec g xs ys p q) = (k + 1)%nat) by (unfold rvec; rewrite map_length, seq_length, LX; reflexivity).
  assert (SQ : square (k + 1) (rmat g xs ys)) by (rewrite <- LX; apply rmat_square).
  assert (GE : forall i j, (i < k + 1)%nat -> (j < k + 1)%nat -> mget (rmat g xs ys) i j = kent g xs ys i j) by (intros; apply rmat_get; rewrite LX; auto).
  assert (RI := regular_iff g xs ys). rewrite LX in RI.
  destruct (SOL (k + 1)%nat (rmat g xs ys) (rvec g xs ys p q) SQ LV) as [(w & LW & E & SW & NK)|(E & v & K)]; rewrite E; cbn [bind].
  - left. split; [apply RI; intros (v & K); apply NK; exists v; revert K; apply kernel_ext; intros; symmetry; apply GE; auto|].
    exists (rget w), (rget w k). split.
    + pose proof (proj2 (sys_iff g xs ys p q (rget w))) as SI. rewrite LX in SI. apply SI. intros i Hi.
      transitivity (mv (k + 1) (mget (rmat g xs ys)) (rget w) i); [apply tot_ext; intros; rewrite GE by auto; reflexivity|].
      rewrite SW by auto. unfold rvec, rget. rewrite get_map_seq by (rewrite LX; auto). reflexivity.
    + f_equal. f_equal.
      * assert (EF : firstn k (ofR w) = ofR (firstn k w)) by (unfold ofR; apply firstn_map).
        assert (EZ : map (get n_nan (ofR z)) used = ofR (only used z)).
        { unfold only, ofR at 2. rewrite map_map. apply map_ext_in. intros i Hi. rewrite ofR_get; [reflexivity|]. rewrite LZ. apply RG. exact Hi. }
        etransitivity; [exact (f_equal2 (fun a b => ndot a b) EF EZ)|]. rewrite ndot_R. apply (f_equal XFin).
        rewrite (tot_rget' _ _ k); [|rewrite firstn_length; lia|rewrite only_length; exact L].
        apply tot_ext. intros i Hi. f_equal. unfold rget, get. rewrite <- (firstn_skipn k w) at 2. rewrite app_nth1 by (rewrite firstn_length; lia). reflexivity.
      * rewrite opp_R, ndot_R. apply (f_equal XFin). rewrite (tot_rget _ _ (k + 1)%nat) by (rewrite ?map_length; lia). rewrite Nat.add_1_r, tot_S.
        assert (GV : forall i, (i < k + 1)%nat -> rget (map Ropp (rvec g xs ys p q)) i = - bent g xs ys p q i).
        { intros. unfold rvec, rget. rewrite map_map, get_map_seq by (rewrite LX; auto). reflexivity. }
        rewrite GV by lia. rewrite (tot_ext _ (fun i => rget w i * gam0 g xs ys p q i)).
        { unfold bent at 1. rewrite LX, Nat.eqb_refl. ring. }
        intros i Hi. rewrite GV by lia. unfold bent. rewrite LX. destruct (Nat.eqb_spec i k); [lia|ring].
  - right. split; [|reflexivity]. intros RR. apply RI in RR. apply RR. exists v. revert K. apply kernel_ext. intros; apply GE; auto.
Qed.
End Point.

Definition point_ok (z : list R) (p q vl sg : R) (used : list nat) : Prop :=
  nearest_stations x y k p q used /\ regular g (only used x) (only used y) /\ exists w mu, krige_sys g (only used x) (only used y) p q w mu /\
  vl = tot (fun i => w i * rget (only used z) i) k /\ sg = tot (fun i => w i * gam0 g (only used x) (only used y) p q i) k - mu.

Lemma window_points_R z : List.length z = n -> forall px py, List.length px = List.length py ->
  let out := window_points vg solve query (kmat vg (ofR x) (ofR y)) (ofR x) (ofR y) (ofR z) k (combine (ofR px) (ofR py)) in
  (exists zi sg, List.length zi = List.length px /\ List.length sg = List.length px /\ out = Ok (combine (ofR zi) (ofR sg)) /\
     forall j, (j < List.length px)%nat -> exists used, point_ok z (rget px j) (rget py j) (rget zi j) (rget sg j) used) \/
  (out = Err OtherError /\ exists j used, (j < List.length px)%nat /\ nearest_stations x y k (rget px j) (rget py j) used /\
     ~ regular g (only used x) (only used y)).
Proof using VG LY SOL QOK KN.
  clear K2. intros LZ px. induction px as [|p px IH]; intros [|q py] LP; try discriminate.
  - left. exists [], []. split; [reflexivity|]. split; [reflexivity|]. split; [reflexivity|]. intros j Hj. cbn in Hj. lia.
  - intros out. cbn in LP. specialize (IH py ltac:(lia)). cbv zeta in IH.
    unfold out. cbn [ofR map combine window_points]. fold (ofR px) (ofR py).
    destruct (query_used p q) as (used & NS & EQ). destruct (window_point_R p q used NS z LZ EQ) as [(RG & w & mu & SY & E)|(NR & E)]; rewrite E; cbn [bind].
    + destruct IH as [(zi & sg & L1 & L2 & E' & A)|(E' & j & u & Hj & N & NR)]; rewrite E'; cbn [bind].
      * left. eexists (_ :: zi), (_ :: sg). split; [cbn; f_equal; exact L1|]. split; [cbn; f_equal; exact L2|]. split; [reflexivity|].
        intros [|j] Hj; [|apply (A j); cbn in Hj; lia]. exists used. split; [exact NS|]. split; [exact RG|]. exists w, mu. split; [exact SY|]. split; reflexivity.
      * right. split; [reflexivity|]. exists (Datatypes.S j), u. split; [cbn; lia|]. split; [exact N|exact NR].
    + right. split; [reflexivity|]. exists 0%nat, used. split; [cbn; lia|]. split; [exact NS|exact NR].
Qed.

Lemma fst_combine {A B} (u : list A) (v : list B) : List.length v = List.length u -> map fst (combine u v) = u.
Proof using. clear. revert v. induction u as [|a u IH]; intros [|b v] L; try discriminate; [reflexivity|]. cbn. rewrite IH by (cbn in L; lia). reflexivity. Qed.
Lemma snd_combine {A B} (u : list A) (v : list B) : List.length v = List.length u -> map snd (combine u v) = v.
Proof using. clear. revert v. induction u as [|a u IH]; intros [|b v] L; try discriminate; [reflexivity|]. cbn. rewrite IH by (cbn in L; lia). reflexivity. Qed.

Lemma near_call z rows cols gx gy : (1 <= n)%nat -> List.length z = n ->
  let out := pykrige_window vg solve query k (ofR x) (ofR y) (ofR z) (ofR (concat gx)) (ofR (concat gy)) in
  (forall e, out = Err e -> near_raises vg solve query k x y z rows cols gx gy e) /\
  (forall zi sg, out = Ok (ofR zi, ofR sg) -> List.length zi = (rows * cols)%nat -> kriged_near vg solve query k x y z rows cols gx gy zi sg).
Proof using LY.
  clear VG SOL QOK K2 KN. intros N1 LZ out.
  assert (HV : exists v, In v (ofR z) /\ n_isnan v = false).
  { destruct z as [|a z]; [simpl in LZ; lia|]. exists (XFin a : XR). split; [left; reflexivity|reflexivity]. }
  pose proof (krige_result (pykrige_window vg solve query k) (new_kriging true) (ofR x) (ofR y) (ofR z) rows cols (FloatGrid (map ofR gx)) (FloatGrid (map ofR gy))) as H.
  rewrite !ofR_length in H. specialize (H ltac:(lia) ltac:(lia) HV). cbv zeta in H. cbn [k_exclude_nan new_kriging] in H.
  rewrite !concat_ofR, !present_all in H by lia. fold out in H. unfold near_raises, kriged_near.
  destruct (krige_call _ _ _ _ _ _ _ _ _) as [s r]. destruct H as (_ & HE & HO). split.
  - intros e E. apply HE in E as [-> _]. reflexivity.
  - intros zi sg E L. apply HO in E as (ES & _ & HG). rewrite ofR_length in HG. destruct (HG L) as (zg & -> & RG & C). exists s, zg. auto.
Qed.

(** one call *)
Lemma near_cases z rows cols gx gy : List.length z = n -> is_grid rows cols gx -> is_grid rows cols gy ->
  (exists zi sg, kriged_near vg solve query k x y z rows cols gx gy zi sg /\ List.length zi = (rows * cols)%nat /\ List.length sg = (rows * cols)%nat /\
     forall j, (j < rows * cols)%nat -> exists used, point_ok z (rget (concat gx) j) (rget (concat gy) j) (rget zi j) (rget sg j) used) \/
  (near_raises vg solve query k x y z rows cols gx gy OtherError /\
     exists j used, (j < rows * cols)%nat /\ nearest_stations x y k (rget (concat gx) j) (rget (concat gy) j) used /\ ~ regular g (only used x) (only used y)).
Proof using VG LY SOL QOK K2 KN.
  intros LZ GX GY. apply is_grid_length in GX, GY. assert (LP : List.length (concat gx) = List.length (concat gy)) by lia.
  destruct (near_call z rows cols gx gy ltac:(lia) LZ) as [CE CO].
  assert (E0 : pykrige_window vg solve query k (ofR x) (ofR y) (ofR z) (ofR (concat gx)) (ofR (concat gy)) =
    do r <- window_points vg solve query (kmat vg (ofR x) (ofR y)) (ofR x) (ofR y) (ofR z) k (combine (ofR (concat gx)) (ofR (concat gy))); Ok (map fst r, map snd r)).
  { unfold pykrige_window. rewrite !ofR_length, LP, Nat.eqb_refl. rewrite (proj2 (Nat.ltb_ge n 2)), (proj2 (Nat.leb_gt k 1)), (proj2 (Nat.ltb_ge n k)) by lia. reflexivity. }
  rewrite E0 in CE, CO. destruct (window_points_R z LZ _ _ LP) as [(zi & sg & L1 & L2 & E & A)|(E & j & u & Hj & N & NR)]; rewrite E in CE, CO; cbn [bind] in CE, CO.
  - left. exists zi, sg. rewrite GX in *. split; [|auto]. apply CO; [|exact L1]. rewrite fst_combine, snd_combine by (rewrite !ofR_length; lia). reflexivity.
  - right. split; [apply CE; reflexivity|]. exists j, u. rewrite GX in Hj. auto.
Qed.
End Win.

Lemma kriged_near_det vg solve query k x y z rows cols gx gy zi sg zi' sg' :
  kriged_near vg solve query k x y z rows cols gx gy zi sg -> kriged_near vg solve query k x y z rows cols gx gy zi' sg' -> zi = zi' /\ sg = sg'.
Proof.
  intros (s & G & E & _ & C & S) (s' & G' & E' & _ & C' & S'). rewrite E in E'. injection E' as <- <-. rewrite C in C'. rewrite S in S'.
  injection S' as S'. assert (INJ : forall a b, ofR a = ofR b -> a = b).
  { clear. induction a as [|u a IH]; intros [|v b] H; try discriminate; [reflexivity|]. cbn in H. injection H as -> H. f_equal. apply IH. exact H. }
  auto.
Qed.
Lemma near_raises_not vg solve query k x y z rows cols gx gy zi sg e :
  kriged_near vg solve query k x y z rows cols gx gy zi sg -> near_raises vg solve query k x y z rows cols gx gy e -> False.
Proof. intros (s & G & E & _) H. unfold near_raises in H. rewrite E in H. discriminate. Qed.
