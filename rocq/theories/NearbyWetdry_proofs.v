(** Proofs about the nearby-link wet/dry classification. *)
From Coq Require Import List ZArith Bool Reals Lra Lia Arith.
From Verif Require Import Base Num NumF64 NumList NpOps Libm RealSpec RealStat Median Haversine_model Haversine_spec Haversine_proofs
  NearbyWetdry_model NearbyWetdry_spec.
Import ListNotations.
Local Open Scope nat_scope.

Lemma filter_length_le {A} (f : A -> bool) l : length (filter f l) <= length l.
Proof. induction l; simpl; auto. destruct (f a); simpl; lia. Qed.

(** ** distances *)
Section Dist.
Context {O : numops}.

Lemma within_cell (d : distances O) radius n i j : square n d -> i < n -> j < n ->
  get false (get [] (within_r d radius) i) j = neighbour d radius i j.
Proof.
  intros W Hi Hj.
  destruct (W (a_to_all_a d)) as [A1 A2]; [simpl; auto|]. destruct (W (a_to_all_b d)) as [B1 B2]; [simpl; auto|].
  destruct (W (b_to_all_a d)) as [C1 C2]; [simpl; auto|]. destruct (W (b_to_all_b d)) as [D1 D2]; [simpl; auto|].
  specialize (A2 i Hi). specialize (B2 i Hi). specialize (C2 i Hi). specialize (D2 i Hi).
  unfold within_r. cbv zeta.
  rewrite get_map2 with (da := []) (db := []) by (rewrite ?map2_length; rewrite ?map_length; rewrite ?map2_length; rewrite ?map_length; lia).
  rewrite get_map2 with (da := []) (db := []) by (rewrite ?map2_length; rewrite ?map_length; lia).
  rewrite get_map2 with (da := []) (db := []) by (rewrite ?map_length; lia).
  rewrite !get_map with (d := []) by lia.
  rewrite get_map2 with (da := false) (db := false) by (rewrite ?map2_length; rewrite ?map_length; rewrite ?map2_length; rewrite ?map_length; lia).
  rewrite get_map2 with (da := false) (db := false) by (rewrite ?map2_length; rewrite ?map_length; lia).
  rewrite get_map2 with (da := false) (db := false) by (rewrite ?map_length; lia).
  rewrite !get_map with (d := n_nan) by lia. reflexivity.
Qed.

Lemma within_length (d : distances O) radius n i : square n d -> i < n -> length (get [] (within_r d radius) i) = n.
Proof.
  intros W Hi.
  destruct (W (a_to_all_a d)) as [A1 A2]; [simpl; auto|]. destruct (W (a_to_all_b d)) as [B1 B2]; [simpl; auto|].
  destruct (W (b_to_all_a d)) as [C1 C2]; [simpl; auto|]. destruct (W (b_to_all_b d)) as [D1 D2]; [simpl; auto|].
  specialize (A2 i Hi). specialize (B2 i Hi). specialize (C2 i Hi). specialize (D2 i Hi).
  unfold within_r. cbv zeta.
  rewrite get_map2 with (da := []) (db := []) by (rewrite ?map2_length; rewrite ?map_length; rewrite ?map2_length; rewrite ?map_length; lia).
  rewrite get_map2 with (da := []) (db := []) by (rewrite ?map2_length; rewrite ?map_length; lia).
  rewrite get_map2 with (da := []) (db := []) by (rewrite ?map_length; lia).
  rewrite !get_map with (d := []) by lia.
  rewrite !map2_length; rewrite ?map2_length; rewrite ?map2_length; rewrite ?map_length; lia.
Qed.

Lemma where_neighbours (d : distances O) radius n i : square n d -> i < n ->
  where_true (get [] (within_r d radius) i) = neighbours d radius n i.
Proof.
  intros W Hi. unfold where_true, neighbours. rewrite (within_length d radius n i W Hi).
  apply filter_ext_in. intros j Hj. apply in_seq in Hj. apply within_cell with n; auto; lia.
Qed.

Lemma calc_distance_cell (L : libm O) n lata lona latb lonb i j : length lata = n -> length lona = n -> length latb = n -> length lonb = n ->
  i < n -> j < n ->
  let d := calc_distance_between_cml_endpoints L n lata lona latb lonb in
  square n d /\
  cell (a_to_all_a d) i j = (if Nat.eqb i j then n_ofZ 0 else haversine L (nget lona i) (nget lata i) (nget lona j) (nget lata j)) /\
  cell (a_to_all_b d) i j = (if Nat.eqb i j then n_ofZ 0 else haversine L (nget lona i) (nget lata i) (nget lonb j) (nget latb j)) /\
  cell (b_to_all_a d) i j = (if Nat.eqb i j then n_ofZ 0 else haversine L (nget lonb i) (nget latb i) (nget lona j) (nget lata j)) /\
  cell (b_to_all_b d) i j = (if Nat.eqb i j then n_ofZ 0 else haversine L (nget lonb i) (nget latb i) (nget lonb j) (nget latb j)).
Proof.
  intros L1 L2 L3 L4 Hi Hj.
  assert (C : forall lon lat lons lats : list O, length lons = n -> length lats = n ->
    nget (get [] (map (fun i => map2 (haversine L (nget lon i) (nget lat i)) lons lats) (seq 0 n)) i) j
    = haversine L (nget lon i) (nget lat i) (nget lons j) (nget lats j)).
  { intros lon lat lons lats E1 E2. rewrite get_map_seq by auto. unfold nget at 1. rewrite get_map2 with (da := n_nan) (db := n_nan) by lia. reflexivity. }
  assert (Z : forall m : list (list O), cell (map (fun i => map (fun j => if Nat.eqb i j then zero else nget (get [] m i) j) (seq 0 n)) (seq 0 n)) i j
     = if Nat.eqb i j then n_ofZ 0 else nget (get [] m i) j).
  { intros m. unfold cell. rewrite get_map_seq by auto. rewrite get_map_seq by auto. reflexivity. }
  cbv zeta. unfold calc_distance_between_cml_endpoints. cbn [a_to_all_a a_to_all_b b_to_all_a b_to_all_b]. split.
  - intros m Hm. cbn [a_to_all_a a_to_all_b b_to_all_a b_to_all_b] in Hm.
    assert (K : forall m0 : list (list O), length (map (fun i => map (fun j => if Nat.eqb i j then zero else nget (get [] m0 i) j) (seq 0 n)) (seq 0 n)) = n /\
      forall i, i < n -> length (get [] (map (fun i => map (fun j => if Nat.eqb i j then zero else nget (get [] m0 i) j) (seq 0 n)) (seq 0 n)) i) = n).
    { intros m0. split; [rewrite map_length, seq_length; auto|]. intros i' Hi'. rewrite get_map_seq by auto. rewrite map_length, seq_length. reflexivity. }
    destruct Hm as [<-|[<-|[<-|[<-|[]]]]]; apply K.
  - rewrite !Z, !C by auto. auto.
Qed.
End Dist.

Lemma neighbour_sym_float (L : libm F64) n lata lona latb lonb radius :
  odd_sin L -> n_ltb (n_ofZ 0) radius = true ->
  length lata = n -> length lona = n -> length latb = n -> length lonb = n ->
  let w := within_r (calc_distance_between_cml_endpoints L n lata lona latb lonb) radius in
  forall i j, i < n -> j < n ->
    get false (get [] w i) i = true /\ get false (get [] w i) j = get false (get [] w j) i.
Proof.
  intros OS HR L1 L2 L3 L4 w i j Hi Hj. unfold w.
  destruct (calc_distance_cell L n lata lona latb lonb i i L1 L2 L3 L4 Hi Hi) as (SQ & E1 & E2 & E3 & E4).
  rewrite !(within_cell _ _ n) by auto. unfold neighbour. split.
  - rewrite E1, E2, E3, E4. rewrite !Nat.eqb_refl. rewrite HR. reflexivity.
  - destruct (calc_distance_cell L n lata lona latb lonb i j L1 L2 L3 L4 Hi Hj) as (_ & F1 & F2 & F3 & F4).
    destruct (calc_distance_cell L n lata lona latb lonb j i L1 L2 L3 L4 Hj Hi) as (_ & G1 & G2 & G3 & G4).
    rewrite F1, F2, F3, F4, G1, G2, G3, G4. rewrite (Nat.eqb_sym j i). destruct (Nat.eqb i j); auto.
    rewrite (haversine_float_sym L (nget lona i) (nget lata i) (nget lona j) (nget lata j) OS).
    rewrite (haversine_float_sym L (nget lona i) (nget lata i) (nget lonb j) (nget latb j) OS).
    rewrite (haversine_float_sym L (nget lonb i) (nget latb i) (nget lona j) (nget lata j) OS).
    rewrite (haversine_float_sym L (nget lonb i) (nget latb i) (nget lonb j) (nget latb j) OS).
    rewrite <- !andb_assoc. f_equal. rewrite !andb_assoc. f_equal. apply andb_comm.
Qed.

(** ** classification *)
Section Classify.
Context {O : numops} (S : numsem O).

Lemma shift_get s l t : t < length l ->
  get true (shift s l) t = if (Z.of_nat t - s <? 0)%Z || (Z.of_nat (length l) <=? Z.of_nat t - s)%Z then true else get false l (Z.to_nat (Z.of_nat t - s)).
Proof. intros H. unfold shift. rewrite get_map_seq by auto. reflexivity. Qed.
Lemma shift_length s l : length (shift s l) = length l.
Proof. unfold shift. rewrite map_length, seq_length. auto. Qed.

Lemma recent_trailing (l : list O) w t f : t < length l -> (forall k, k < length l -> get n_nan l k = f k) ->
  not_nan (trailing w t l) = recent w t f.
Proof.
  intros Ht H. unfold trailing, recent, not_nan. f_equal. apply get_ext with (d := n_nan).
  - rewrite slice_length, map_length, seq_length by lia. lia.
  - rewrite slice_length by lia. intros i Hi. rewrite get_slice by lia. rewrite H by lia.
    rewrite get_map with (d := 0) by (rewrite seq_length; lia). unfold get. rewrite seq_nth by lia. reflexivity.
Qed.

Lemma link_median_ok (dP dX : nat -> nat -> O) nb ml t (rowsP rowsX : list (list O)) :
  column rowsP t = map (fun j => dP j t) nb -> column rowsX t = map (fun j => dX j t) nb ->
  is_link_median dP dX nb ml t
    (median (not_nan (map (fun x => if Nat.ltb ml (length (not_nan (column rowsP t))) then x else n_nan) (column rowsX t)))).
Proof.
  intros E1 E2. unfold is_link_median. rewrite E1, E2. fold (not_nan (O := O)).
  change (numbers (map (fun j => dP j t) nb)) with (not_nan (map (fun j => dP j t) nb)).
  change (numbers (map (fun j => dX j t) nb)) with (not_nan (map (fun j => dX j t) nb)).
  set (have := not_nan (map (fun j => dP j t) nb)). cbv zeta.
  assert (NN : forall l : list O, not_nan (map (fun _ => n_nan) l) = ([] : list O)).
  { induction l; simpl; auto. rewrite (isnan_nan S). exact IHl. }
  assert (M0 : median ([] : list O) = n_nan) by reflexivity.
  destruct (Nat.ltb_spec ml (length have)) as [H|H].
  - rewrite map_id. split; [lia|]. split.
    + intros _ ->. exact M0.
    + intros _ Hv. apply (median_is_median S). intros y Hy. apply not_nan_In in Hy. tauto.
  - split; [|split; lia]. intros _. rewrite NN. exact M0.
Qed.

Definition cls (T : nat) thrP thrPL (mP mPL own : nat -> O) (t : nat) : O :=
  if n_isnan (mP t) || n_isnan (mPL t) then n_nan
  else if (Nat.eqb t 0) || (Nat.leb T (t + 2)) || median_rule thrP thrPL mP mPL t || strong thrP thrPL mP mPL own (t - 1)
          || strong thrP thrPL mP mPL own (t + 1) || strong thrP thrPL mP mPL own (t + 2) then n_ofZ 1 else n_ofZ 0.
Definition score (interval w : nat) (dPL mPL : nat -> O) (t : nat) : O :=
  let v := recent w t (fun k => n_sub (dPL k) (mPL k)) in
  n_mul (if Nat.ltb (length v) w then n_nan else n_sum v) (n_div (n_ofZ (Z.of_nat interval)) (n_ofZ 60)).

(** the drop and the medians as functions of the data *)
Definition drop (pmin : list (list O)) (w k i t : nat) : O :=
  n_sub (cell pmin i t) (let v := recent w t (cell pmin i) in if Nat.ltb (length v) k then n_nan else amax v).
Definition link_median (dP dX : nat -> nat -> O) (nb : list nat) (ml t : nat) : O :=
  median (not_nan (map (fun x : O => if Nat.ltb ml (length (not_nan (map (fun j => dP j t) nb))) then x else n_nan) (map (fun j => dX j t) nb))).

Lemma eqb_one_one : n_eqb (one : O) one = true.
Proof. rewrite (val_eqb _ S). apply xeqb_true. unfold one. rewrite (val_ofZ _ S) by (compute; discriminate). auto. Qed.
Lemma eqb_zero_one : n_eqb (zero : O) one = false.
Proof.
  apply not_true_is_false. intros E. rewrite (val_eqb _ S) in E. unfold zero, one in E.
  rewrite !(val_ofZ _ S) in E by (compute; discriminate). apply xeqb_true in E as [E _]. injection E as E. lra.
Qed.
Lemma eqb_nan_one : n_eqb (n_nan : O) one = false.
Proof.
  apply not_true_is_false. intros E. rewrite (val_eqb _ S) in E. apply xeqb_true in E as [_ E].
  rewrite <- (val_isnan _ S), (isnan_nan S) in E. discriminate.
Qed.

Lemma classify_spec T (d : distances O) radius n (deltaP deltaPL : list (list O)) thrP thrPL ml interval tp i :
  square n d -> length deltaP = n -> length deltaPL = n ->
  (forall k, k < n -> length (get [] deltaP k) = T /\ length (get [] deltaPL k) = T) ->
  i < n ->
  let nb := neighbours d radius n i in
  let run := classify_link T (within_r d radius) deltaP deltaPL thrP thrPL ml interval tp i in
  (length nb <= ml -> run = Ok None) /\
  (ml < length nb -> neighbour d radius i i = true -> 1 <= tp -> tp * 4 <= T ->
    let mP := link_median (cell deltaP) (cell deltaP) nb ml in let mPL := link_median (cell deltaP) (cell deltaPL) nb ml in
    exists w F, run = Ok (Some (w, F)) /\ length w = T /\ length F = T /\
    forall t, t < T ->
      get n_nan w t = cls T thrP thrPL mP mPL (cell deltaP i) t /\
      get n_nan F t = score interval (tp * 4) (cell deltaPL i) mPL t).
Proof.
  intros W LP LPL LT Hi nb run. unfold run, classify_link. rewrite (where_neighbours d radius n i W Hi). fold nb.
  destruct (Nat.ltb_spec ml (length nb)) as [Hml|Hml]; [split; [lia|]|split; [auto|lia]].
  intros _ Hself Htp HT. cbv zeta. set (mP := link_median (cell deltaP) (cell deltaP) nb ml). set (mPL := link_median (cell deltaP) (cell deltaPL) nb ml).
  rewrite (within_cell d radius n i i W Hi Hi), Hself. cbn [negb].
  unfold mask_select. rewrite (where_neighbours d radius n i W Hi). fold nb.
  set (nearP := map (get [] deltaP) nb). set (nearPL := map (get [] deltaPL) nb).
  assert (EP : forall t, median (not_nan (map (fun x : O => if Nat.ltb ml (length (not_nan (column nearP t))) then x else n_nan) (column nearP t))) = mP t).
  { intros t. unfold mP, link_median, column, nearP. rewrite !map_map. reflexivity. }
  assert (EPL : forall t, median (not_nan (map (fun x : O => if Nat.ltb ml (length (not_nan (column nearP t))) then x else n_nan) (column nearPL t))) = mPL t).
  { intros t. unfold mPL, link_median, column, nearP, nearPL. rewrite !map_map. reflexivity. }
  rewrite (map_ext _ _ EP), (map_ext _ _ EPL).
  set (medP := map mP (seq 0 T)). set (medPL := map mPL (seq 0 T)).
  assert (LmP : length medP = T) by (unfold medP; rewrite map_length, seq_length; auto).
  assert (LmPL : length medPL = T) by (unfold medPL; rewrite map_length, seq_length; auto).
  assert (GmP : forall t, t < T -> get n_nan medP t = mP t) by (intros; unfold medP; rewrite get_map_seq; auto).
  assert (GmPL : forall t, t < T -> get n_nan medPL t = mPL t) by (intros; unfold medPL; rewrite get_map_seq; auto).
  destruct (LT i Hi) as [LTi LTPLi].
  set (Fv := map2 n_sub (get [] deltaPL i) medPL).
  assert (LFv : length Fv = T) by (unfold Fv; rewrite map2_length; lia).
  assert (GFv : forall k, k < length Fv -> get n_nan Fv k = n_sub (cell deltaPL i k) (mPL k)).
  { intros k Hk. unfold Fv. rewrite get_map2 with (da := n_nan) (db := n_nan) by lia. rewrite GmPL by lia. reflexivity. }
  destruct (rolling_get n_sum (tp * 4) (tp * 4) Fv) as (sums & Es & Ls & Gs). { apply rolling_ok_true. lia. }
  rewrite Es. cbn [bind].
  set (wet0 := map2 _ medP medPL).
  assert (Lw0 : length wet0 = T) by (unfold wet0; rewrite map2_length; lia).
  assert (Gw0 : forall t, t < T -> get n_nan wet0 t = if n_isnan (mP t) || n_isnan (mPL t) then n_nan else if median_rule thrP thrPL mP mPL t then one else zero).
  { intros t Ht. unfold wet0. rewrite get_map2 with (da := n_nan) (db := n_nan) by lia. rewrite GmP, GmPL by auto. reflexivity. }
  set (cond := map2 _ wet0 (get [] deltaP i)).
  assert (Lc : length cond = T) by (unfold cond; rewrite map2_length; lia).
  assert (Gc : forall t, t < T -> get false cond t = strong thrP thrPL mP mPL (cell deltaP i) t).
  { intros t Ht. unfold cond. rewrite get_map2 with (da := n_nan) (db := n_nan) by lia. rewrite Gw0 by auto. unfold strong. f_equal.
    destruct (n_isnan (mP t)) eqn:N1; [|destruct (n_isnan (mPL t)) eqn:N2].
    - cbn [orb]. unfold median_rule. rewrite (ltb_nan_l S _ _ N1). apply eqb_nan_one.
    - cbn [orb]. unfold median_rule. rewrite (ltb_nan_l S _ _ N2), andb_false_r. apply eqb_nan_one.
    - cbn [orb]. destruct (median_rule thrP thrPL mP mPL t); [apply eqb_one_one|apply eqb_zero_one]. }
  cbn [fold_left].
  assert (STEP : forall s (w : list O) t, length w = T -> t < T ->
    length (map2 (fun (c : bool) (x : O) => if c then one else x) (shift s cond) w) = T /\
    get n_nan (map2 (fun (c : bool) (x : O) => if c then one else x) (shift s cond) w) t
    = if get true (shift s cond) t then one else get n_nan w t).
  { intros s w t Lw Ht. rewrite map2_length by (rewrite shift_length; lia). split; [rewrite shift_length; lia|].
    rewrite get_map2 with (da := true) (db := n_nan) by (rewrite shift_length; lia). reflexivity. }
  set (w1 := map2 _ (shift 1 cond) wet0). set (w2 := map2 _ (shift (-1) cond) w1). set (w3 := map2 _ (shift (-2) cond) w2).
  eexists _, _. split; [reflexivity|].
  assert (T1 : 1 <= T) by lia.
  assert (Lw1 : length w1 = T) by (apply (STEP 1%Z wet0 0); lia).
  assert (Lw2 : length w2 = T) by (apply (STEP (-1)%Z w1 0); lia).
  assert (Lw3 : length w3 = T) by (apply (STEP (-2)%Z w2 0); lia).
  split; [rewrite map2_length; lia|]. split; [rewrite map_length; lia|].
  intros t Ht.
  split.
  - rewrite get_map2 with (da := n_nan) (db := n_nan) by lia.
    unfold w3. rewrite (proj2 (STEP (-2)%Z w2 t Lw2 Ht)). unfold w2. rewrite (proj2 (STEP (-1)%Z w1 t Lw1 Ht)).
    unfold w1. rewrite (proj2 (STEP 1%Z wet0 t Lw0 Ht)). rewrite !shift_get by lia. rewrite Lc. rewrite Gw0 by auto. unfold cls.
    destruct (n_isnan (mP t) || n_isnan (mPL t)) eqn:N; [rewrite (isnan_nan S); reflexivity|].
    assert (NI : n_isnan (if median_rule thrP thrPL mP mPL t then one else zero : O) = false).
    { destruct (median_rule thrP thrPL mP mPL t); apply (isnan_ofZ S); compute; discriminate. }
    rewrite NI.
    assert (K1 : (if (Z.of_nat t - 1 <? 0)%Z || (Z.of_nat T <=? Z.of_nat t - 1)%Z then true else get false cond (Z.to_nat (Z.of_nat t - 1)))
      = Nat.eqb t 0 || strong thrP thrPL mP mPL (cell deltaP i) (t - 1)).
    { destruct (Nat.eqb_spec t 0) as [->|E]; [reflexivity|].
      destruct (Z.ltb_spec (Z.of_nat t - 1) 0); [lia|]. destruct (Z.leb_spec (Z.of_nat T) (Z.of_nat t - 1)); [lia|]. cbn [orb].
      replace (Z.to_nat (Z.of_nat t - 1)) with (t - 1) by lia. apply Gc. lia. }
    assert (K2 : forall e, e = 1 \/ e = 2 -> (if (Z.of_nat t - - Z.of_nat e <? 0)%Z || (Z.of_nat T <=? Z.of_nat t - - Z.of_nat e)%Z then true else get false cond (Z.to_nat (Z.of_nat t - - Z.of_nat e)))
      = Nat.leb T (t + e) || strong thrP thrPL mP mPL (cell deltaP i) (t + e)).
    { intros e He. destruct (Z.ltb_spec (Z.of_nat t - - Z.of_nat e) 0); [lia|].
      destruct (Z.leb_spec (Z.of_nat T) (Z.of_nat t - - Z.of_nat e)); destruct (Nat.leb_spec T (t + e)); try lia; [reflexivity|]. cbn [orb].
      replace (Z.to_nat (Z.of_nat t - - Z.of_nat e)) with (t + e) by lia. apply Gc. lia. }
    rewrite K1. pose proof (K2 1 (or_introl eq_refl)) as K21. pose proof (K2 2 (or_intror eq_refl)) as K22.
    change (- Z.of_nat 1)%Z with (-1)%Z in K21. change (- Z.of_nat 2)%Z with (-2)%Z in K22. rewrite K21, K22.
    fold (one : O). fold (zero : O).
    set (m := median_rule thrP thrPL mP mPL t). set (a := strong thrP thrPL mP mPL (cell deltaP i) (t - 1)).
    set (b := strong thrP thrPL mP mPL (cell deltaP i) (t + 1)). set (c := strong thrP thrPL mP mPL (cell deltaP i) (t + 2)).
    destruct (Nat.leb_spec T (t + 2)).
    + destruct (Nat.eqb t 0), (Nat.leb T (t + 1)), m, a, b, c; reflexivity.
    + destruct (Nat.leb_spec T (t + 1)); [lia|]. destruct (Nat.eqb t 0), m, a, b, c; reflexivity.
  - rewrite get_map with (d := n_nan) by lia. rewrite Gs by lia. unfold score. cbv zeta.
    rewrite (recent_trailing Fv (tp * 4) t (fun k => n_sub (cell deltaPL i k) (mPL k))) by (auto; lia). reflexivity.
Qed.

(** ** the whole function *)
Lemma mapM_ok {A B} (f : A -> res B) (d : A) (d' : B) (P : A -> B -> Prop) l :
  (forall x, In x l -> exists y, f x = Ok y /\ P x y) ->
  exists r, mapM f l = Ok r /\ length r = length l /\ forall i, i < length l -> P (get d l i) (get d' r i).
Proof.
  induction l as [|x l IH]; intros H.
  - exists []. split; [reflexivity|]. split; [reflexivity|]. simpl. intros; lia.
  - destruct (H x) as (y & E & HP); [left; auto|]. destruct IH as (r & E2 & L & G); [intros; apply H; right; auto|].
    exists (y :: r). simpl. rewrite E. cbn [bind]. rewrite E2. cbn [bind]. split; [reflexivity|]. split; [simpl; lia|].
    intros [|i] Hi; [exact HP|]. apply G. simpl in Hi. lia.
Qed.

Lemma drops (pmin : list (list O)) T w k : (forall i, i < length pmin -> length (get [] pmin i) = T) ->
  1 <= k <= w -> w <= T ->
  exists mx, mapM (rolling amax w k) pmin = Ok mx /\ length mx = length pmin /\
  (forall i, i < length pmin -> length (get [] mx i) = T) /\
  forall i t, i < length pmin -> t < T -> cell (map2 (map2 n_sub) pmin mx) i t = drop pmin w k i t.
Proof.
  intros HL Hk Hw.
  destruct (mapM_ok (rolling amax w k) [] [] (fun row r => length r = length row /\ forall t, t < length row ->
    get n_nan r t = let v := not_nan (trailing w t row) in if Nat.ltb (length v) k then n_nan else amax v) pmin) as (mx & E & L & G).
  { intros row Hrow. destruct (In_get [] pmin row Hrow) as (i & Hi & <-).
    destruct (rolling_get amax w k (get [] pmin i)) as (r & E & Lr & Gr); [apply rolling_ok_true; rewrite HL by auto; lia|]. exists r. auto. }
  exists mx. split; [exact E|]. split; [exact L|]. split.
  - intros i Hi. destruct (G i Hi) as [G1 _]. rewrite G1. auto.
  - intros i t Hi Ht. destruct (G i Hi) as [G1 G2]. rewrite HL in G1, G2 by auto.
    assert (EC : cell (map2 (map2 n_sub) pmin mx) i t = n_sub (cell pmin i t) (get n_nan (get [] mx i) t)).
    { unfold cell. rewrite get_map2 with (da := []) (db := []) by lia. rewrite get_map2 with (da := n_nan) (db := n_nan) by (rewrite HL; auto; lia). reflexivity. }
    rewrite EC. rewrite G2 by auto.
    rewrite (recent_trailing (get [] pmin i) w t (cell pmin i)) by (rewrite ?HL; auto).
    reflexivity.
Qed.

Lemma drop_ok pmin w k i t : 1 <= k -> is_drop pmin w k (drop pmin w k) i t.
Proof.
  intros Hk. unfold is_drop, drop. cbv zeta. set (v := recent w t (cell pmin i)). split; intros Hv.
  - destruct (Nat.ltb_spec (length v) k); [|lia]. apply (sub_nan_r S). apply (isnan_nan S).
  - destruct (Nat.ltb_spec (length v) k); [lia|]. exists (amax v). split; auto. unfold amax.
    destruct (np_max v) as [m|e] eqn:EM; [apply (np_max_spec S); auto|]. destruct v; [simpl in Hv; lia|discriminate].
Qed.

Lemma nearby_wetdry_closed T (pmin : list (list O)) lens d radius thrP thrPL ml interval tp mh :
  let n := length pmin in
  let period := tp * 60 / interval in let hours := mh * 60 / interval in
  (forall i, i < n -> length (get [] pmin i) = T) -> length lens = n -> square n d ->
  interval <> 0 -> 1 <= hours <= period -> period <= T -> tp * 4 <= T ->
  (forall i, i < n -> neighbour d radius i i = true) ->
  let dP := drop pmin period hours in let dPL := fun j t => n_div (dP j t) (get n_nan lens j) in
  exists wet F, nearby_wetdry T pmin lens d radius thrP thrPL ml interval tp mh = Ok (wet, F) /\
  length wet = n /\ length F = n /\
  forall i, i < n ->
    let nb := neighbours d radius n i in
    length (get [] wet i) = T /\ length (get [] F i) = T /\
    (length nb <= ml -> forall t, t < T -> cell wet i t = n_nan /\ cell F i t = n_nan) /\
    (ml < length nb -> let mP := link_median dP dP nb ml in let mPL := link_median dP dPL nb ml in forall t, t < T ->
      cell wet i t = cls T thrP thrPL mP mPL (dP i) t /\
      cell F i t = score interval (tp * 4) (dPL i) mPL t).
Proof.
  intros n period hours HL Ll W HI Hh Hp H4 Hs dP dPL. unfold nearby_wetdry.
  destruct (Nat.eqb_spec interval 0); [congruence|]. fold period hours. cbv zeta.
  replace (rolling_ok period hours T) with true by (symmetry; apply rolling_ok_true; lia). cbn [negb].
  destruct (drops pmin T period hours) as (mx & Emx & Lmx & Tmx & D); auto. rewrite Emx. cbn [bind].
  set (deltaP := map2 (map2 n_sub) pmin mx).
  set (deltaPL := map2 (fun row l => map (fun x => n_div x l) row) deltaP lens).
  assert (LP : length deltaP = n) by (unfold deltaP; rewrite map2_length; auto).
  assert (LPL : length deltaPL = n) by (unfold deltaPL; rewrite map2_length; lia).
  assert (TP : forall k, k < n -> length (get [] deltaP k) = T).
  { intros k Hk. unfold deltaP. rewrite get_map2 with (da := []) (db := []) by (auto; lia).
    rewrite map2_length; [apply HL; auto|]. rewrite HL, Tmx; auto. }
  assert (TPL : forall k, k < n -> length (get [] deltaPL k) = T).
  { intros k Hk. unfold deltaPL. rewrite get_map2 with (da := []) (db := n_nan) by lia. rewrite map_length. auto. }
  assert (CPL : forall k t, k < n -> t < T -> cell deltaPL k t = n_div (cell deltaP k t) (get n_nan lens k)).
  { intros k t Hk Ht. unfold cell. unfold deltaPL. rewrite get_map2 with (da := []) (db := n_nan) by lia.
    rewrite get_map with (d := n_nan) by (rewrite TP; auto). reflexivity. }
  assert (Hperiod : 1 <= tp). { destruct tp; [|lia]. unfold period in *. rewrite Nat.mul_0_l in Hh. rewrite Nat.div_0_l in Hh by auto. lia. }
  set (full := map (fun _ => repeat n_nan T) pmin).
  set (good := fun (i : nat) (rw rf : list O) =>
     let nb := neighbours d radius n i in
     length rw = T /\ length rf = T /\
     (length nb <= ml -> forall t, t < T -> get n_nan rw t = n_nan /\ get n_nan rf t = n_nan) /\
     (ml < length nb -> let mP := link_median (cell deltaP) (cell deltaP) nb ml in let mPL := link_median (cell deltaP) (cell deltaPL) nb ml in forall t, t < T ->
      get n_nan rw t = cls T thrP thrPL mP mPL (cell deltaP i) t /\
      get n_nan rf t = score interval (tp * 4) (cell deltaPL i) mPL t)).
  set (body := fun (cml : nat) (st : list (list O) * list (list O)) => _).
  destruct (for_range_res_inv (fun k st => length (fst st) = n /\ length (snd st) = n /\
     (forall i, i < k -> good i (get [] (fst st) i) (get [] (snd st) i)) /\
     (forall i, k <= i < n -> get [] (fst st) i = repeat n_nan T /\ get [] (snd st) i = repeat n_nan T)) n 0 body (full, full)) as ([wet F] & Erun & Lw & LF & G & _).
  { cbn [fst snd]. unfold full. rewrite map_length. split; [reflexivity|]. split; [reflexivity|]. split; [intros; lia|].
    intros i Hi. rewrite get_map with (d := []) by lia. auto. }
  { intros i st Hi (L1 & L2 & G1 & G2). unfold body.
    destruct (classify_spec T d radius n deltaP deltaPL thrP thrPL ml interval tp i) as [K1 K2]; auto; [lia|].
    destruct (Nat.le_gt_cases (length (neighbours d radius n i)) ml) as [Hm|Hm].
    - rewrite (K1 Hm). cbn [bind]. exists st. split; [reflexivity|]. split; [exact L1|]. split; [exact L2|]. split.
      + intros j Hj. destruct (Nat.eq_dec j i) as [->|N]; [|apply G1; lia].
        destruct (G2 i) as [R1 R2]; [lia|]. rewrite R1, R2. unfold good. rewrite repeat_length. split; [auto|]. split; [auto|]. split; [|lia].
        intros _ t Ht. rewrite !get_repeat by auto. auto.
      + intros j Hj. apply G2. lia.
    - destruct K2 as (w & f & Ec & Lw & Lf & Gc); auto; [apply Hs; lia|]. rewrite Ec. cbn [bind].
      eexists. split; [reflexivity|]. cbn [fst snd]. rewrite !upd_length. split; [exact L1|]. split; [exact L2|]. split.
      + intros j Hj. destruct (Nat.eq_dec j i) as [->|N].
        * rewrite !get_upd_eq by lia. unfold good. split; [exact Lw|]. split; [exact Lf|]. split; [lia|]. intros _. exact Gc.
        * rewrite !get_upd_neq by lia. apply G1. lia.
      + intros j Hj. rewrite !get_upd_neq by lia. apply G2. lia. }
  exists wet, F. split; [exact Erun|]. split; [exact Lw|]. split; [exact LF|].
  intros i Hi. destruct (G i Hi) as (T1 & T2 & N1 & N2). cbn [fst snd] in *. split; [exact T1|]. split; [exact T2|]. split; [exact N1|].
  intros Hm. set (mP := link_median dP dP (neighbours d radius n i) ml). set (mPL := link_median dP dPL (neighbours d radius n i) ml). cbv zeta.
  assert (D' : forall j u, j < n -> u < T -> cell deltaP j u = dP j u) by exact D.
  intros t Ht. destruct (N2 Hm t Ht) as [Q3 Q4]. unfold cell at 1 2. rewrite Q3, Q4.
  assert (In_nb : forall j, In j (neighbours d radius n i) -> j < n).
  { intros j Hj. unfold neighbours in Hj. apply filter_In in Hj as [Hj _]. apply in_seq in Hj. lia. }
  assert (DL : forall j u, j < n -> u < T -> cell deltaPL j u = dPL j u).
  { intros j u Hj Hu. rewrite CPL by auto. unfold dPL. rewrite (D' j u Hj Hu). reflexivity. }
  assert (M1 : forall u, u < T -> link_median (cell deltaP) (cell deltaP) (neighbours d radius n i) ml u = mP u).
  { intros u Hu. unfold mP, link_median. assert (E : map (fun j => cell deltaP j u) (neighbours d radius n i) = map (fun j => dP j u) (neighbours d radius n i)).
    { apply map_ext_in. intros j Hj. apply D; auto. } rewrite E. reflexivity. }
  assert (M2 : forall u, u < T -> link_median (cell deltaP) (cell deltaPL) (neighbours d radius n i) ml u = mPL u).
  { intros u Hu. unfold mPL, link_median. assert (E : map (fun j => cell deltaP j u) (neighbours d radius n i) = map (fun j => dP j u) (neighbours d radius n i)).
    { apply map_ext_in. intros j Hj. apply D; auto. } rewrite E.
    assert (E' : map (fun j => cell deltaPL j u) (neighbours d radius n i) = map (fun j => dPL j u) (neighbours d radius n i)).
    { apply map_ext_in. intros j Hj. apply DL; auto. } rewrite E'. reflexivity. }
  split.
  - assert (MR : forall u, u < T -> median_rule thrP thrPL (link_median (cell deltaP) (cell deltaP) (neighbours d radius n i) ml) (link_median (cell deltaP) (cell deltaPL) (neighbours d radius n i) ml) u = median_rule thrP thrPL mP mPL u).
    { intros u Hu. unfold median_rule. rewrite M1, M2 by auto. reflexivity. }
    assert (ST : forall u, u < T -> strong thrP thrPL (link_median (cell deltaP) (cell deltaP) (neighbours d radius n i) ml) (link_median (cell deltaP) (cell deltaPL) (neighbours d radius n i) ml) (cell deltaP i) u = strong thrP thrPL mP mPL (dP i) u).
    { intros u Hu. unfold strong. rewrite MR by auto. rewrite (D' i u Hi Hu). reflexivity. }
    unfold cls. rewrite (M1 t Ht), (M2 t Ht), (MR t Ht), (ST (t - 1)) by lia.
    destruct (n_isnan (mP t) || n_isnan (mPL t)); [reflexivity|].
    destruct (Nat.leb_spec T (t + 2)); [rewrite orb_true_r; reflexivity|]. rewrite !ST by lia. reflexivity.
  - unfold score. cbv zeta.
    assert (E : recent (tp * 4) t (fun k => n_sub (cell deltaPL i k) (link_median (cell deltaP) (cell deltaPL) (neighbours d radius n i) ml k)) = recent (tp * 4) t (fun k => n_sub (dPL i k) (mPL k))).
    { unfold recent. f_equal. apply map_ext_in. intros k Hk. apply in_seq in Hk. rewrite DL, M2 by lia. reflexivity. }
    rewrite E. reflexivity.
Qed.

Lemma nearby_wetdry_full T (pmin : list (list O)) lens d radius thrP thrPL ml interval tp mh :
  let n := length pmin in
  let period := tp * 60 / interval in let hours := mh * 60 / interval in
  (forall i, i < n -> length (get [] pmin i) = T) -> length lens = n -> square n d ->
  interval <> 0 -> 1 <= hours <= period -> period <= T -> tp * 4 <= T ->
  (forall i, i < n -> neighbour d radius i i = true) ->
  exists wet F dP, nearby_wetdry T pmin lens d radius thrP thrPL ml interval tp mh = Ok (wet, F) /\
  (forall i t, i < n -> t < T -> is_drop pmin period hours dP i t) /\
  length wet = n /\ length F = n /\
  forall i, i < n ->
    let nb := neighbours d radius n i in
    let dPL := fun j t => n_div (dP j t) (get n_nan lens j) in
    length (get [] wet i) = T /\ length (get [] F i) = T /\
    (length nb <= ml -> forall t, t < T -> cell wet i t = n_nan /\ cell F i t = n_nan) /\
    (ml < length nb -> exists mP mPL, forall t, t < T ->
      is_link_median dP dP nb ml t (mP t) /\ is_link_median dP dPL nb ml t (mPL t) /\
      cell wet i t = cls T thrP thrPL mP mPL (dP i) t /\
      cell F i t = score interval (tp * 4) (dPL i) mPL t).
Proof.
  intros n period hours HL Ll W HI Hh Hp H4 Hs.
  destruct (nearby_wetdry_closed T pmin lens d radius thrP thrPL ml interval tp mh HL Ll W HI Hh Hp H4 Hs) as (wet & F & E & Lw & LF & G).
  exists wet, F, (drop pmin period hours). split; [exact E|]. split; [intros i t _ _; apply drop_ok; lia|]. split; [exact Lw|]. split; [exact LF|].
  intros i Hi nb dPL. destruct (G i Hi) as (G1 & G2 & G3 & G4). split; [exact G1|]. split; [exact G2|]. split; [exact G3|].
  intros Hm. eexists _, _. intros t Ht. split; [|split; [|exact (G4 Hm t Ht)]]; unfold link_median.
  - pose proof (link_median_ok (drop pmin period hours) (drop pmin period hours) nb ml t
      (map (fun j => map (drop pmin period hours j) (seq 0 (Datatypes.S t))) nb) (map (fun j => map (drop pmin period hours j) (seq 0 (Datatypes.S t))) nb)) as K.
    assert (C : column (map (fun j => map (drop pmin period hours j) (seq 0 (Datatypes.S t))) nb) t = map (fun j => drop pmin period hours j t) nb).
    { unfold column. rewrite map_map. apply map_ext. intros j. unfold nget. rewrite get_map_seq by lia. reflexivity. }
    specialize (K C C). rewrite C in K. exact K.
  - pose proof (link_median_ok (drop pmin period hours) dPL nb ml t
      (map (fun j => map (drop pmin period hours j) (seq 0 (Datatypes.S t))) nb) (map (fun j => map (dPL j) (seq 0 (Datatypes.S t))) nb)) as K.
    assert (C : column (map (fun j => map (drop pmin period hours j) (seq 0 (Datatypes.S t))) nb) t = map (fun j => drop pmin period hours j t) nb).
    { unfold column. rewrite map_map. apply map_ext. intros j. unfold nget. rewrite get_map_seq by lia. reflexivity. }
    assert (C' : column (map (fun j => map (dPL j) (seq 0 (Datatypes.S t))) nb) t = map (fun j => dPL j t) nb).
    { unfold column. rewrite map_map. apply map_ext. intros j. unfold nget. rewrite get_map_seq by lia. reflexivity. }
    specialize (K C C'). rewrite C, C' in K. exact K.
Qed.

Lemma cls_values T thrP thrPL mP mPL (own : nat -> O) t :
  cls T thrP thrPL mP mPL own t = n_nan \/ cls T thrP thrPL mP mPL own t = n_ofZ 0 \/ cls T thrP thrPL mP mPL own t = n_ofZ 1.
Proof. unfold cls. destruct (_ || _); auto. destruct (_ || _); auto. Qed.

Lemma recent_length w t (f : nat -> O) : length (recent w t f) <= w.
Proof.
  unfold recent. eapply Nat.le_trans; [apply filter_length_le|]. rewrite map_length, seq_length. lia.
Qed.

Lemma recent_nan w t (f : nat -> O) k : t < k + w -> k <= t -> n_isnan (f k) = true -> length (recent w t f) < w.
Proof.
  intros H1 H2 HN. unfold recent.
  assert (G : forall l : list O, In (f k) l -> length (filter (fun x => negb (n_isnan x)) l) < length l).
  { induction l as [|x l IH]; [intros []|]. intros [->|Hx]; simpl.
    - rewrite HN. simpl. pose proof (filter_length_le (fun x => negb (n_isnan x)) l). lia.
    - destruct (n_isnan x); simpl; specialize (IH Hx); lia. }
  eapply Nat.lt_le_trans; [apply G|].
  - apply in_map. apply in_seq. lia.
  - rewrite map_length, seq_length. lia.
Qed.

Lemma score_nan interval w (dPL mPL : nat -> O) t : length (recent w t (fun k => n_sub (dPL k) (mPL k))) < w ->
  n_isnan (score interval w dPL mPL t) = true.
Proof.
  intros H. unfold score. cbv zeta. destruct (Nat.ltb_spec (length (recent w t (fun k => n_sub (dPL k) (mPL k)))) w); [|lia].
  rewrite (val_isnan _ S), (val_mul _ S). pose proof (isnan_nan S) as N. rewrite (val_isnan _ S) in N.
  destruct (val S n_nan); simpl in N; try discriminate. simpl. rewrite (rnd_nan _ S). reflexivity.
Qed.

Lemma values_and_unclassified T (pmin : list (list O)) lens d radius thrP thrPL ml interval tp mh :
  call_ok T pmin lens d radius interval tp mh ->
  exists wet F dP, nearby_wetdry T pmin lens d radius thrP thrPL ml interval tp mh = Ok (wet, F) /\
  length wet = length pmin /\ length F = length pmin /\
  (forall i t, i < length pmin -> t < T -> is_drop pmin (tp * 60 / interval) (mh * 60 / interval) dP i t) /\
  forall i, i < length pmin ->
    let nb := neighbours d radius (length pmin) i in
    length (get [] wet i) = T /\ length (get [] F i) = T /\
    forall t, t < T ->
    (cell wet i t = n_nan \/ cell wet i t = n_ofZ 0 \/ cell wet i t = n_ofZ 1) /\
    (length nb <= ml -> cell wet i t = n_nan /\ cell F i t = n_nan) /\
    (length (numbers (map (fun j => dP j t) nb)) <= ml -> cell wet i t = n_nan /\ n_isnan (cell F i t) = true).
Proof.
  intros [R1 R2 R3 R4 R5 R6 R7 R8].
  destruct (nearby_wetdry_full T pmin lens d radius thrP thrPL ml interval tp mh) as (wet & F & dP & E & D & Lw & LF & G); auto.
  exists wet, F, dP. split; [exact E|]. split; [exact Lw|]. split; [exact LF|]. split; [exact D|].
  intros i Hi nb. destruct (G i Hi) as (T1 & T2 & G1 & G2). fold nb in G1, G2. split; [exact T1|]. split; [exact T2|]. intros t Ht.
  destruct (Nat.le_gt_cases (length nb) ml) as [Hm|Hm].
  - destruct (G1 Hm t Ht) as [N1 N2]. rewrite N1, N2. split; [auto|]. split; [auto|]. intros _. split; auto. apply (isnan_nan S).
  - destruct (G2 Hm) as (mP & mPL & Q). destruct (Q t Ht) as (Q1 & Q2 & Q3 & Q4). rewrite Q3, Q4. split; [apply cls_values|]. split; [lia|].
    intros Hd. destruct Q1 as [Q1 _]. destruct Q2 as [Q2 _]. specialize (Q1 Hd). specialize (Q2 Hd). split.
    + unfold cls. rewrite Q1, (isnan_nan S). reflexivity.
    + apply score_nan. apply recent_nan with t; try lia.
      * destruct tp; [rewrite Nat.mul_0_l, Nat.div_0_l in R5 by auto; lia|lia].
      * apply (sub_nan_r S). rewrite Q2. apply (isnan_nan S).
Qed.

Lemma interior_rule T (pmin : list (list O)) lens d radius thrP thrPL ml interval tp mh :
  call_ok T pmin lens d radius interval tp mh ->
  exists wet F dP, nearby_wetdry T pmin lens d radius thrP thrPL ml interval tp mh = Ok (wet, F) /\
  (forall i t, i < length pmin -> t < T -> is_drop pmin (tp * 60 / interval) (mh * 60 / interval) dP i t) /\
  forall i, i < length pmin ->
    let nb := neighbours d radius (length pmin) i in
    ml < length nb -> exists mP mPL,
    (forall t, t < T -> is_link_median dP dP nb ml t (mP t) /\
        is_link_median dP (fun j t => n_div (dP j t) (get n_nan lens j)) nb ml t (mPL t)) /\
    forall t, 1 <= t -> t + 2 < T -> n_isnan (mP t) = false -> n_isnan (mPL t) = false ->
      let rain := median_rule thrP thrPL mP mPL in
      let heavy := strong thrP thrPL mP mPL (dP i) in
      (rain t = true \/ heavy (t - 1) = true \/ heavy (t + 1) = true \/ heavy (t + 2) = true -> cell wet i t = n_ofZ 1) /\
      (rain t = false /\ heavy (t - 1) = false /\ heavy (t + 1) = false /\ heavy (t + 2) = false -> cell wet i t = n_ofZ 0).
Proof.
  intros [R1 R2 R3 R4 R5 R6 R7 R8].
  destruct (nearby_wetdry_full T pmin lens d radius thrP thrPL ml interval tp mh) as (wet & F & dP & E & D & Lw & LF & G); auto.
  exists wet, F, dP. split; [exact E|]. split; [exact D|].
  intros i Hi nb Hm. destruct (G i Hi) as (_ & _ & _ & G2). destruct (G2 Hm) as (mP & mPL & Q). exists mP, mPL. split.
  - intros t Ht. destruct (Q t Ht) as (Q1 & Q2 & _). auto.
  - intros t H1 H2 N1 N2. assert (Ht : t < T) by lia. destruct (Q t Ht) as (_ & _ & Q3 & _). cbv zeta. rewrite Q3. unfold cls. rewrite N1, N2.
    destruct (Nat.eqb_spec t 0); [lia|]. destruct (Nat.leb_spec T (t + 2)); [lia|]. cbn [orb]. split.
    + intros [->|[->|[->| ->]]]; rewrite ?orb_true_r; reflexivity.
    + intros (-> & -> & -> & ->). reflexivity.
Qed.

Lemma ends_wet T (pmin : list (list O)) lens d radius thrP thrPL ml interval tp mh :
  call_ok T pmin lens d radius interval tp mh ->
  exists wet F dP, nearby_wetdry T pmin lens d radius thrP thrPL ml interval tp mh = Ok (wet, F) /\
  (forall i t, i < length pmin -> t < T -> is_drop pmin (tp * 60 / interval) (mh * 60 / interval) dP i t) /\
  forall i, i < length pmin ->
    let nb := neighbours d radius (length pmin) i in
    ml < length nb -> exists mP mPL,
    (forall t, t < T -> is_link_median dP dP nb ml t (mP t) /\
        is_link_median dP (fun j t => n_div (dP j t) (get n_nan lens j)) nb ml t (mPL t)) /\
    forall t, t < T -> t = 0 \/ T <= t + 2 -> n_isnan (mP t) = false -> n_isnan (mPL t) = false ->
      cell wet i t = n_ofZ 1.
Proof.
  intros [R1 R2 R3 R4 R5 R6 R7 R8].
  destruct (nearby_wetdry_full T pmin lens d radius thrP thrPL ml interval tp mh) as (wet & F & dP & E & D & Lw & LF & G); auto.
  exists wet, F, dP. split; [exact E|]. split; [exact D|].
  intros i Hi nb Hm. destruct (G i Hi) as (_ & _ & _ & G2). destruct (G2 Hm) as (mP & mPL & Q). exists mP, mPL. split.
  - intros t Ht. destruct (Q t Ht) as (Q1 & Q2 & _). auto.
  - intros t Ht Hend N1 N2. destruct (Q t Ht) as (_ & _ & Q3 & _). rewrite Q3. unfold cls. rewrite N1, N2.
    destruct Hend as [->|He]; [reflexivity|]. destruct (Nat.leb_spec T (t + 2)); [|lia]. rewrite orb_true_r. reflexivity.
Qed.
End Classify.

(** ** F in exact arithmetic *)
Lemma recent_all (w t : nat) (g : nat -> R) (f : nat -> XR) : w <= t + 1 -> (forall k, k <= t -> t < k + w -> f k = (XFin (g k) : XR)) ->
  recent w t f = ofR (map g (seq (t + 1 - w) w)).
Proof.
  intros Hw H. unfold recent. replace (t + 1 - (t + 1 - w)) with w by lia. unfold ofR. rewrite map_map.
  assert (E : map f (seq (t + 1 - w) w) = map (fun k => XFin (g k) : XR) (seq (t + 1 - w) w)).
  { apply map_ext_in. intros k Hk. apply in_seq in Hk. apply H; lia. }
  rewrite E. generalize (seq (t + 1 - w) w). induction l; simpl; auto. f_equal. exact IHl.
Qed.

Lemma score_exact T (pmin : list (list XR)) lens d radius thrP thrPL ml interval tp mh :
  call_ok T pmin lens d radius interval tp mh ->
  exists wet F dP, nearby_wetdry T pmin lens d radius thrP thrPL ml interval tp mh = Ok (wet, F) /\
  (forall i t, i < length pmin -> t < T -> is_drop pmin (tp * 60 / interval) (mh * 60 / interval) dP i t) /\
  forall i, i < length pmin ->
    let nb := neighbours d radius (length pmin) i in
    let dPL := fun j t => n_div (dP j t) (get n_nan lens j) in
    ml < length nb -> exists mPL,
    (forall t, t < T -> is_link_median dP dPL nb ml t (mPL t)) /\
    let excess := fun k => n_sub (dPL i k) (mPL k) in
    forall t, t < T ->
      (t + 1 < 4 * tp -> n_isnan (cell F i t) = true) /\
      ((exists k, k <= t /\ t < k + 4 * tp /\ n_isnan (excess k) = true) -> n_isnan (cell F i t) = true) /\
      (forall g : nat -> R, 4 * tp <= t + 1 -> (forall k, k <= t -> t < k + 4 * tp -> excess k = (XFin (g k) : XR)) ->
         cell F i t = (XFin (rsum (map g (seq (t + 1 - 4 * tp) (4 * tp))) * (INR interval / 60)) : XR)).
Proof.
  intros [R1 R2 R3 R4 R5 R6 R7 R8].
  destruct (nearby_wetdry_full XRsem T pmin lens d radius thrP thrPL ml interval tp mh) as (wet & F & dP & E & D & Lw & LF & G); auto.
  exists wet, F, dP. split; [exact E|]. split; [exact D|].
  intros i Hi nb dPL Hm. destruct (G i Hi) as (_ & _ & _ & G2). destruct (G2 Hm) as (mP & mPL & Q). exists mPL. split.
  - intros t Ht. destruct (Q t Ht) as (_ & Q2 & _). auto.
  - intros excess t Ht. destruct (Q t Ht) as (_ & _ & _ & Q4). rewrite Q4. replace (tp * 4) with (4 * tp) by lia. fold dPL. split; [|split].
    + intros H. apply (score_nan XRsem). unfold recent. eapply Nat.le_lt_trans; [apply filter_length_le|]. rewrite map_length, seq_length. lia.
    + intros (k & K1 & K2 & K3). apply (score_nan XRsem). apply recent_nan with k; auto.
    + intros g H4 Hg. change (score interval (4 * tp) (dPL i) mPL t = (XFin (rsum (map g (seq (t + 1 - 4 * tp) (4 * tp))) * (INR interval / 60)) : XR)).
      unfold score. cbv zeta. change (fun k : nat => n_sub (dPL i k) (mPL k)) with excess. rewrite (recent_all (4 * tp) t g excess H4 Hg).
      rewrite ofR_length, map_length, seq_length. destruct (Nat.ltb_spec (4 * tp) (4 * tp)); [lia|]. rewrite n_sum_ofR.
      assert (E60 : n_div (n_ofZ (Z.of_nat interval) : XR) (n_ofZ 60) = (XFin (INR interval / 60) : XR)).
      { change (xdiv (XFin (IZR (Z.of_nat interval))) (XFin 60) = XFin (INR interval / 60)).
        unfold xdiv. destruct (Flocq.Core.Raux.Req_bool_spec 60 0); [lra|]. rewrite <- INR_IZR_INZ. reflexivity. }
      rewrite E60. reflexivity.
Qed.
