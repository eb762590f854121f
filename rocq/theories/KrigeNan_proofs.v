(** * Kriging with exclude_nan=False: where missing values spread *)
From Coq Require Import List ZArith Bool Lia.
From Verif Require Import Base Num NumList NpOps Idw_model Idw_spec Stft_proofs Kriging_model Kriging_proofs OrdKrige_model KrigeWin_model KrigeNan_spec.
Import ListNotations.
Local Open Scope nat_scope.

Section P.
Context {O : numops} (S : numsem O).

Lemma ndot_nan (u v : list O) i : i < length u -> i < length v -> n_isnan (get n_nan v i) = true -> n_isnan (ndot u v) = true.
Proof using S.
  intros H1 H2 N. unfold ndot, map2. apply (sum_nan S) with (x := n_mul (get n_nan u i) (get n_nan v i)).
  - apply in_map_iff. exists (get n_nan u i, get n_nan v i). split; auto. revert v i H1 H2 N. induction u as [|a u IH]; intros [|b v] i H1 H2 N; cbn [length] in *; try lia.
    destruct i as [|i]; [left; reflexivity|]. right. apply (IH v i); auto; lia.
  - rewrite (val_isnan _ S), (val_mul _ S), (rnd_nan _ S). rewrite (val_isnan _ S) in N. destruct (val S (get n_nan v i)); try discriminate. destruct (val S (get n_nan u i)); reflexivity.
Qed.
Lemma kmat_length (vg : O -> O) x y : length (kmat vg x y) = length x + 1.
Proof using. unfold kmat. rewrite map_length, seq_length. reflexivity. Qed.

Lemma concat_reshape {A} rows cols (l : list A) : length l = rows * cols -> concat (reshape rows cols l) = l.
Proof using. intros H. apply (reshape_rect rows cols l H). Qed.

(** a call with exclude_nan=False on data that are not all missing *)
Lemma call_kept krige (s : kriging O) x y z rows cols xg yg s' G : k_exclude_nan s = false -> krige_call krige s x y z rows cols xg yg = (s', Ok G) ->
  forallb n_isnan z = false -> exists zi sg, krige x y z (concat (grid_values xg)) (concat (grid_values yg)) = Ok (zi, sg) /\
  length x = length y /\ length y = length z /\ length zi = rows * cols /\ G = reshape rows cols zi /\ k_sigma s' = Some sg.
Proof using.
  intros X E NZ. unfold krige_call, points_to_grid in E. destruct (negb _) eqn:L; [discriminate|]. apply negb_false_iff, andb_prop in L. destruct L as [L1 L2].
  apply Nat.eqb_eq in L1, L2. rewrite NZ in E. unfold krige_func in E. rewrite X in E.
  destruct (krige x y z (concat (grid_values xg)) (concat (grid_values yg))) as [[zi sg]|e] eqn:K; [|discriminate E]. exists zi, sg. split; auto.
  cbn [bind] in E. destruct (Nat.eqb_spec (length zi) (rows * cols)) as [LE|]; injection E; [|discriminate]. intros <- <-. cbn [k_sigma]. auto 6.
Qed.
Lemma call_all_nan krige (s : kriging O) x y z rows cols xg yg s' G : krige_call krige s x y z rows cols xg yg = (s', Ok G) ->
  forallb n_isnan z = true -> G = repeat (repeat (n_nan : O) cols) rows.
Proof using.
  intros E NZ. unfold krige_call, points_to_grid in E. destruct (negb _) eqn:L; [discriminate|]. rewrite NZ in E. destruct xg; injection E; intros; congruence.
Qed.
Lemma in_reshape rows cols (l : list O) v : length l = rows * cols -> In v (concat (reshape rows cols l)) -> In v l.
Proof using. intros H Hv. rewrite concat_reshape in Hv by auto. exact Hv. Qed.

Lemma missing_spreads vg inv (s : kriging O) x y z rows cols xg yg s' G : inv_keeps_size inv -> k_exclude_nan s = false ->
  (exists v, In v z /\ n_isnan v = true) -> krige_call (pykrige vg inv) s x y z rows cols xg yg = (s', Ok G) ->
  forall v, In v (concat G) -> n_isnan v = true.
Proof using S.
  intros SZ X (u & Hu & Nu) E v Hv. destruct (forallb n_isnan z) eqn:NZ.
  - rewrite (call_all_nan _ _ _ _ _ _ _ _ _ _ _ E NZ) in Hv. apply in_concat in Hv. destruct Hv as (r & Hr & Hv). apply repeat_spec in Hr. subst r. apply repeat_spec in Hv. subst v. apply (isnan_nan S).
  - destruct (call_kept _ _ _ _ _ _ _ _ _ _ _ X E NZ) as (zi & sg & K & L1 & L2 & LZ & -> & _). apply in_reshape in Hv; auto.
    unfold pykrige in K. destruct (Nat.ltb _ 2); [discriminate|]. destruct (negb _); [discriminate|]. destruct (inv (kmat vg x y)) as [B|] eqn:I; [|discriminate].
    cbn [bind] in K. injection K as <- <-. apply in_map_iff in Hv. destruct Hv as ([a b] & <- & Hp). unfold map2 in Hp. apply in_map_iff in Hp. destruct Hp as ([p q] & E' & _). cbn [fst snd] in *.
    unfold kpoint in E'. injection E' as <- <-. destruct (In_nth _ _ (n_nan : O) Hu) as (i & Hi & Ei).
    apply (ndot_nan _ _ i); [|exact Hi|unfold get; rewrite Ei; exact Nu].
    unfold kweights. rewrite map_length, (SZ _ _ I), kmat_length. lia.
Qed.

Lemma pykrige_sigma (vg : O -> O) inv x y z z' xi yi zi sg zi' sg' : pykrige vg inv x y z xi yi = Ok (zi, sg) -> pykrige vg inv x y z' xi yi = Ok (zi', sg') -> sg = sg'.
Proof using.
  unfold pykrige. destruct (Nat.ltb _ 2); [discriminate|]. destruct (negb _); [discriminate|]. destruct (inv (kmat vg x y)) as [B|]; [|discriminate].
  cbn [bind]. intros [= _ <-] [= _ <-]. unfold map2. rewrite !map_map. reflexivity.
Qed.
Lemma missing_variance vg inv (s : kriging O) x y z z' rows cols xg yg s1 G1 s2 G2 : k_exclude_nan s = false ->
  forallb n_isnan z = false -> forallb n_isnan z' = false ->
  krige_call (pykrige vg inv) s x y z rows cols xg yg = (s1, Ok G1) -> krige_call (pykrige vg inv) s x y z' rows cols xg yg = (s2, Ok G2) -> k_sigma s1 = k_sigma s2.
Proof using.
  intros X N1 N2 E1 E2. destruct (call_kept _ _ _ _ _ _ _ _ _ _ _ X E1 N1) as (zi & sg & K & _ & _ & _ & _ & ->). destruct (call_kept _ _ _ _ _ _ _ _ _ _ _ X E2 N2) as (zi' & sg' & K' & _ & _ & _ & _ & ->).
  f_equal. eapply pykrige_sigma; eauto.
Qed.

(** ** nearest stations only *)
Section Win.
Variable vg : O -> O.
Variable solve : list (list O) -> list O -> res (list O).
Variable query : list (O * O) -> O * O -> nat -> O -> option O -> list (O * nat).
Lemma points_get A x y z k ps vs : window_points vg solve query A x y z k ps = Ok vs -> length vs = length ps /\
  forall i, i < length ps -> window_point vg solve query A x y z k (get (n_nan, n_nan) ps i) = Ok (get (n_nan, n_nan) vs i).
Proof using.
  revert vs. induction ps as [|p ps IH]; intros vs H; cbn [window_points] in H.
  - injection H as <-. split; auto. intros i Hi. cbn in Hi. lia.
  - destruct (window_point vg solve query A x y z k p) as [v|] eqn:E; [|discriminate]. cbn [bind] in H. destruct (window_points vg solve query A x y z k ps) as [ws|] eqn:F; [|discriminate].
    cbn [bind] in H. injection H as <-. destruct (IH ws eq_refl) as [L G]. split; [cbn [length]; congruence|]. intros [|i] Hi; [exact E|]. apply (G i). cbn [length] in Hi. apply Nat.succ_lt_mono, Hi.
Qed.
Lemma window_ok k x y z xi yi zi sg : pykrige_window vg solve query k x y z xi yi = Ok (zi, sg) ->
  length zi = length xi /\ forall i, i < length xi -> window_point vg solve query (kmat vg x y) x y z k (get n_nan xi i, get n_nan yi i) = Ok (get n_nan zi i, get n_nan sg i).
Proof using.
  unfold pykrige_window. destruct (Nat.ltb _ 2); [discriminate|]. destruct (Nat.leb k 1); [discriminate|]. destruct (negb _) eqn:LE; [discriminate|]. apply negb_false_iff, Nat.eqb_eq in LE.
  destruct (Nat.ltb _ k); [discriminate|]. destruct (window_points _ _ _ _ _ _ _ _ _) as [vs|] eqn:E; [|discriminate]. cbn [bind]. intros [= <- <-].
  destruct (points_get _ _ _ _ _ _ _ E) as [L G]. rewrite combine_length, <- LE, Nat.min_id in L, G. rewrite map_length. split; auto.
  intros i Hi. specialize (G i Hi). unfold get at 1 in G. rewrite combine_nth in G by auto. unfold get at 1 2. rewrite G. f_equal.
  rewrite (get_map _ (n_nan, n_nan)), (get_map snd (n_nan, n_nan)) by (rewrite L; auto). destruct (get (n_nan, n_nan) vs i); reflexivity.
Qed.

Lemma window_nan k x y z xi yi zi sg i j : solve_keeps_size solve -> query_at_most query ->
  pykrige_window vg solve query k x y z xi yi = Ok (zi, sg) -> i < length xi -> In j (neighbours query x y k (get n_nan xi i) (get n_nan yi i)) -> n_isnan (get n_nan z j) = true ->
  n_isnan (get n_nan zi i) = true.
Proof using S.
  intros SZ QM E Hi Hj N. destruct (window_ok _ _ _ _ _ _ _ _ E) as [_ W]. specialize (W i Hi). unfold window_point in W. unfold neighbours in Hj.
  set (near := query (combine x y) (get n_nan xi i, get n_nan yi i) k zero None) in *.
  match type of W with (do w <- solve ?a ?b; _) = _ => destruct (solve a b) as [w|] eqn:SE end; [|discriminate]. cbn [bind] in W. injection W as W _. rewrite <- W.
  apply SZ in SE. rewrite app_length, !map_length in SE. cbn [length] in SE. pose proof (QM (combine x y) (get n_nan xi i, get n_nan yi i) k zero None) as Q. fold near in Q.
  destruct (In_nth _ _ 0 Hj) as (m & Hm & Em). rewrite map_length in Hm.
  apply (ndot_nan _ _ m); [rewrite firstn_length; lia|rewrite !map_length; auto|]. rewrite (get_map _ 0) by (rewrite map_length; auto). unfold get at 2. rewrite Em. exact N.
Qed.
Lemma window_local k x y z z' xi yi zi sg zi' sg' i :
  pykrige_window vg solve query k x y z xi yi = Ok (zi, sg) -> pykrige_window vg solve query k x y z' xi yi = Ok (zi', sg') -> i < length xi ->
  (forall j, In j (neighbours query x y k (get n_nan xi i) (get n_nan yi i)) -> get n_nan z' j = get n_nan z j) ->
  get n_nan zi' i = get n_nan zi i.
Proof using.
  intros E E' Hi H. destruct (window_ok _ _ _ _ _ _ _ _ E) as [_ W]. destruct (window_ok _ _ _ _ _ _ _ _ E') as [_ W']. specialize (W i Hi). specialize (W' i Hi).
  unfold window_point in W, W'. unfold neighbours in H. set (near := query (combine x y) (get n_nan xi i, get n_nan yi i) k zero None) in *.
  match type of W with (do w <- ?sol; _) = _ => destruct sol as [w|]; [|discriminate] end. cbn [bind] in W, W'. injection W as W _. injection W' as W' _. rewrite <- W, <- W'.
  f_equal. apply map_ext_in. exact H.
Qed.
End Win.

Lemma window_missing vg solve query (s : kriging O) k x y z rows cols xg yg s' G : solve_keeps_size solve -> query_at_most query -> k_exclude_nan s = false ->
  forallb n_isnan z = false -> krige_call (pykrige_window vg solve query k) s x y z rows cols xg yg = (s', Ok G) ->
  length (concat G) = rows * cols /\
  (forall i j, i < rows * cols -> In j (neighbours query x y k (get n_nan (concat (grid_values xg)) i) (get n_nan (concat (grid_values yg)) i)) -> n_isnan (get n_nan z j) = true ->
     n_isnan (get n_nan (concat G) i) = true) /\
  (forall z' s'' G' i, forallb n_isnan z' = false -> krige_call (pykrige_window vg solve query k) s x y z' rows cols xg yg = (s'', Ok G') -> i < rows * cols ->
     (forall j, In j (neighbours query x y k (get n_nan (concat (grid_values xg)) i) (get n_nan (concat (grid_values yg)) i)) -> get n_nan z' j = get n_nan z j) ->
     get n_nan (concat G') i = get n_nan (concat G) i).
Proof using S.
  intros SZ QM X NZ E. destruct (call_kept _ _ _ _ _ _ _ _ _ _ _ X E NZ) as (zi & sg & K & L1 & L2 & LZ & -> & _). rewrite concat_reshape by auto. split; auto.
  destruct (window_ok _ _ _ _ _ _ _ _ _ _ _ K) as [LX _]. split.
  - intros i j Hi Hj N. eapply window_nan; eauto. lia.
  - intros z' s'' G' i NZ' E' Hi H. destruct (call_kept _ _ _ _ _ _ _ _ _ _ _ X E' NZ') as (zi' & sg' & K' & _ & _ & LZ' & -> & _). rewrite concat_reshape by auto.
    eapply window_local; eauto. lia.
Qed.
End P.
