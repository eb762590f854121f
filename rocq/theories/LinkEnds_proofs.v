(** Proofs about neighbours: order of the ends, radius, missing coordinates, origin of longitudes *)
From Coq Require Import List ZArith Bool Reals Lra Lia Arith String.
From Verif Require Import Base Num NumF64 NumList NpOps Libm Libm64 RealSpec RealStat Median Haversine_model Haversine_spec Haversine_proofs
  NearbyWetdry_model NearbyWetdry_spec NearbyWetdry_proofs NearbyChain_model LinkEnds_spec.
Import ListNotations.
Local Notation length := List.length.
Local Open Scope nat_scope.

Section Gen.
Context {O : numops}.

Lemma within_rows (d : distances O) radius n : square n d -> length (within_r d radius) = n.
Proof.
  intros W. destruct (W (a_to_all_a d)) as [A1 _]; [simpl; auto|]. destruct (W (a_to_all_b d)) as [B1 _]; [simpl; auto|].
  destruct (W (b_to_all_a d)) as [C1 _]; [simpl; auto|]. destruct (W (b_to_all_b d)) as [D1 _]; [simpl; auto|].
  unfold within_r. cbv zeta. rewrite !map2_length; rewrite ?map2_length; rewrite ?map2_length; rewrite ?map_length; lia.
Qed.

Lemma within_ext (d d' : distances O) r r' n : square n d -> square n d' ->
  (forall i j, i < n -> j < n -> neighbour d r i j = neighbour d' r' i j) -> within_r d r = within_r d' r'.
Proof.
  intros W W' E. apply get_ext with [].
  { rewrite !(within_rows _ _ n); auto. }
  rewrite (within_rows d r n W). intros i Hi. apply get_ext with false.
  { rewrite !(within_length _ _ n); auto. }
  rewrite (within_length d r n i W Hi). intros j Hj. rewrite !(within_cell _ _ n); auto.
Qed.

Lemma dist_square (L : libm O) n lata lona latb lonb : length lata = n -> length lona = n -> length latb = n -> length lonb = n ->
  square n (calc_distance_between_cml_endpoints L n lata lona latb lonb).
Proof.
  intros. destruct n as [|n].
  - intros m Hm. assert (E : m = []) by (destruct Hm as [<-|[<-|[<-|[<-|[]]]]]; reflexivity). subst m. split; [reflexivity|]. intros; lia.
  - apply (calc_distance_cell L (S n) lata lona latb lonb 0 0); auto; lia.
Qed.

Lemma ends_do_not_matter (L : libm O) n lata lona latb lonb lata' lona' latb' lonb' radius :
  length lata = n -> length lona = n -> length latb = n -> length lonb = n ->
  length lata' = n -> length lona' = n -> length latb' = n -> length lonb' = n ->
  same_links n lata lona latb lonb lata' lona' latb' lonb' ->
  within_r (calc_distance_between_cml_endpoints L n lata' lona' latb' lonb') radius =
  within_r (calc_distance_between_cml_endpoints L n lata lona latb lonb) radius.
Proof.
  intros H1 H2 H3 H4 H5 H6 H7 H8 HS. apply within_ext with n; [apply dist_square; auto..|]. intros i j Hi Hj.
  destruct (calc_distance_cell L n lata lona latb lonb i j H1 H2 H3 H4 Hi Hj) as (_ & A & B & C & D).
  destruct (calc_distance_cell L n lata' lona' latb' lonb' i j H5 H6 H7 H8 Hi Hj) as (_ & A' & B' & C' & D').
  unfold neighbour. rewrite A, B, C, D, A', B', C', D'. clear A B C D A' B' C' D'. destruct (Nat.eqb i j); [reflexivity|].
  assert (Si := HS i Hi). assert (Sj := HS j Hj). unfold at_ in Si, Sj. unfold nget.
  destruct Si as [(-> & -> & -> & ->)|(-> & -> & -> & ->)], Sj as [(-> & -> & -> & ->)|(-> & -> & -> & ->)];
    repeat match goal with |- context [n_ltb ?a ?b] => destruct (n_ltb a b) end; reflexivity.
Qed.

Lemma wetdry_within T pmin lengths (d d' : distances O) radius thrP thrPL ml interval tp mh :
  within_r d radius = within_r d' radius ->
  nearby_wetdry T pmin lengths d radius thrP thrPL ml interval tp mh = nearby_wetdry T pmin lengths d' radius thrP thrPL ml interval tp mh.
Proof. intros E. unfold nearby_wetdry. cbv zeta. rewrite E. reflexivity. Qed.

Lemma radius_mono (S : numsem O) (d : distances O) r r' n i j : square n d -> i < n -> j < n -> n_leb r r' = true ->
  get false (get [] (within_r d r) i) j = true -> get false (get [] (within_r d r') i) j = true.
Proof.
  intros W Hi Hj Hr. rewrite !(within_cell _ _ n) by auto. unfold neighbour. rewrite !andb_true_iff.
  assert (T : forall x, n_ltb x r = true -> n_ltb x r' = true).
  { intros x. rewrite !(val_ltb _ S). rewrite (val_leb _ S) in Hr. intros. eapply xltb_leb_trans; eauto. }
  intros [[[A B] C] D]. auto.
Qed.

Lemma haversine_nan (S : numsem O) (L : libm O) lon1 lat1 lon2 lat2 : nan_in_nan_out L ->
  n_isnan lon1 = true \/ n_isnan lat1 = true \/ n_isnan lon2 = true \/ n_isnan lat2 = true ->
  n_isnan (haversine L lon1 lat1 lon2 lat2) = true.
Proof.
  intros HL H.
  assert (NA : forall x y : O, n_isnan x = true -> n_isnan (n_add x y) = true).
  { intros x y. rewrite !(val_isnan _ S), (val_add _ S). destruct (val S x); try discriminate. intros _. rewrite (rnd_nan _ S); reflexivity. }
  assert (NA' : forall x y : O, n_isnan y = true -> n_isnan (n_add x y) = true).
  { intros x y. rewrite !(val_isnan _ S), (val_add _ S). destruct (val S y); try discriminate. intros _. destruct (val S x); rewrite (rnd_nan _ S); reflexivity. }
  assert (NS : forall x y : O, n_isnan x = true -> n_isnan (n_sub x y) = true).
  { intros x y. rewrite !(val_isnan _ S), (val_sub _ S). destruct (val S x); try discriminate. intros _. rewrite (rnd_nan _ S); reflexivity. }
  assert (NS' : forall x y : O, n_isnan y = true -> n_isnan (n_sub x y) = true).
  { intros x y. rewrite !(val_isnan _ S), (val_sub _ S). destruct (val S y); try discriminate. intros _. destruct (val S x); rewrite (rnd_nan _ S); reflexivity. }
  assert (NM : forall x y : O, n_isnan x = true -> n_isnan (n_mul x y) = true).
  { intros x y. rewrite !(val_isnan _ S), (val_mul _ S). destruct (val S x); try discriminate. intros _. rewrite (rnd_nan _ S); reflexivity. }
  assert (NM' : forall x y : O, n_isnan y = true -> n_isnan (n_mul x y) = true).
  { intros x y. rewrite !(val_isnan _ S), (val_mul _ S). destruct (val S y); try discriminate. intros _. destruct (val S x); rewrite (rnd_nan _ S); reflexivity. }
  assert (ND : forall x : O, n_isnan x = true -> n_isnan (n_div x (n_ofZ 2)) = true).
  { intros x. rewrite !(val_isnan _ S). intros E. rewrite (val_div _ S).
    - destruct (val S x); try discriminate. rewrite (val_ofZ _ S) by (simpl; lia). rewrite (rnd_nan _ S); reflexivity.
    - rewrite (val_ofZ _ S) by (simpl; lia). intros Q. injection Q. intros Q'. lra. }
  assert (NQ : forall x : O, n_isnan x = true -> n_isnan (n_sqrt x) = true).
  { intros x. rewrite !(val_isnan _ S), (val_sqrt _ S). destruct (val S x); try discriminate. intros _. rewrite (rnd_nan _ S); reflexivity. }
  unfold haversine. cbv zeta. apply NM', NM'.
  match goal with |- n_isnan (m_atan2 L (n_sqrt ?a) _) = true => assert (Ha : n_isnan a = true) end.
  { assert (R : forall x, n_isnan x = true -> n_isnan (m_radians L x) = true) by (intros x Hx; apply (HL x Hx)).
    assert (Sn : forall x, n_isnan x = true -> n_isnan (m_sin L x) = true) by (intros x Hx; apply (HL x Hx)).
    destruct H as [H|[H|[H|H]]].
    - apply NA', NM', NM, Sn, ND, NS', R, H.
    - apply NA, NM, Sn, ND, NS', R, H.
    - apply NA', NM', NM, Sn, ND, NS, R, H.
    - apply NA, NM, Sn, ND, NS, R, H. }
  destruct (HL _ (NQ _ Ha)) as (_ & _ & _ & A). apply A.
Qed.

Lemma missing_coordinate (S : numsem O) (L : libm O) n lata lona latb lonb radius i j : nan_in_nan_out L ->
  length lata = n -> length lona = n -> length latb = n -> length lonb = n -> i < n -> j < n -> i <> j ->
  n_isnan (at_ lata i) = true \/ n_isnan (at_ lona i) = true \/ n_isnan (at_ latb i) = true \/ n_isnan (at_ lonb i) = true ->
  get false (get [] (within_r (calc_distance_between_cml_endpoints L n lata lona latb lonb) radius) i) j = false /\
  get false (get [] (within_r (calc_distance_between_cml_endpoints L n lata lona latb lonb) radius) j) i = false.
Proof.
  intros HL H1 H2 H3 H4 Hi Hj Hne H. unfold at_ in H.
  destruct (calc_distance_cell L n lata lona latb lonb i j H1 H2 H3 H4 Hi Hj) as (_ & A & B & C & D).
  destruct (calc_distance_cell L n lata lona latb lonb j i H1 H2 H3 H4 Hj Hi) as (_ & A' & B' & C' & D').
  rewrite (proj2 (Nat.eqb_neq i j) Hne) in *. rewrite (proj2 (Nat.eqb_neq j i) (not_eq_sym Hne)) in *.
  rewrite !(within_cell _ _ n) by (auto; apply dist_square; auto).
  unfold neighbour. rewrite A, B, C, D, A', B', C', D'. unfold nget.
  assert (F : forall lo1 la1 lo2 la2, n_isnan lo1 = true \/ n_isnan la1 = true \/ n_isnan lo2 = true \/ n_isnan la2 = true ->
    n_ltb (haversine L lo1 la1 lo2 la2) radius = false) by (intros; apply (ltb_nan_l S), (haversine_nan S); auto).
  clear A B C D A' B' C' D'. destruct H as [H|[H|[H|H]]]; split.
  1-4: rewrite (F (get n_nan lona _) (get n_nan lata _) (get n_nan lona _) (get n_nan lata _)) by tauto; reflexivity.
  all: rewrite (F (get n_nan lonb _) (get n_nan latb _) (get n_nan lonb _) (get n_nan latb _)) by tauto; rewrite !andb_false_r; reflexivity.
Qed.
End Gen.

Lemma F64cr_nan : nan_in_nan_out F64cr.
Proof.
  intros x Hx. assert (V : f_val x = XNaN).
  { change (n_isnan x = true) in Hx. rewrite (val_isnan _ F64sem) in Hx. change (val F64sem x) with (f_val x) in Hx. destruct (f_val x); try discriminate. reflexivity. }
  assert (K : n_isnan (f_of_xr XNaN : F64) = true) by (vm_compute; reflexivity).
  split; [|split; [|split]].
  - change (m_radians F64cr x) with (f_of_xr (xradians (f_val x))). rewrite V. exact K.
  - change (m_sin F64cr x) with (f_of_xr (xsin (f_val x))). rewrite V. exact K.
  - change (m_cos F64cr x) with (f_of_xr (xcos (f_val x))). rewrite V. exact K.
  - intros y. change (m_atan2 F64cr x y) with (f_of_xr (xatan2 (f_val x) (f_val y))). rewrite V. exact K.
Qed.

(** ** exact arithmetic *)
Section Exact.
Local Open Scope R_scope.
Lemma great_circle_shift c lon1 lat1 lon2 lat2 : great_circle (lon1 + c) lat1 (lon2 + c) lat2 = great_circle lon1 lat1 lon2 lat2.
Proof.
  unfold great_circle. do 2 f_equal. unfold cos_angle, dot3, ux, uy, uz, rad.
  replace ((lon1 + c) * (PI / 180)) with (lon1 * (PI / 180) + c * (PI / 180)) by ring.
  replace ((lon2 + c) * (PI / 180)) with (lon2 * (PI / 180) + c * (PI / 180)) by ring.
  set (x := lon1 * (PI / 180)). set (y := lon2 * (PI / 180)). set (z := c * (PI / 180)).
  rewrite !cos_plus, !sin_plus. pose proof (sin2_cos2 z) as E. unfold Rsqr in E.
  set (p := cos (lat1 * (PI / 180))). set (q := cos (lat2 * (PI / 180))).
  transitivity (p * q * ((cos x * cos y + sin x * sin y) * (sin z * sin z + cos z * cos z)) + sin (lat1 * (PI / 180)) * sin (lat2 * (PI / 180))); [ring|].
  rewrite E. ring.
Qed.
Lemma great_circle_turn lon1 lat1 lon2 lat2 : great_circle (lon1 + 360) lat1 lon2 lat2 = great_circle lon1 lat1 lon2 lat2.
Proof.
  unfold great_circle. do 2 f_equal. unfold cos_angle, dot3, ux, uy, uz, rad.
  replace ((lon1 + 360) * (PI / 180)) with (lon1 * (PI / 180) + 2 * PI) by field.
  rewrite cos_plus, sin_plus, cos_2PI, sin_2PI. ring.
Qed.
Lemma haversine_shift c lon1 lat1 lon2 lat2 :
  haversine XRm (XFin (lon1 + c) : XR) (XFin lat1 : XR) (XFin (lon2 + c) : XR) (XFin lat2 : XR) =
  haversine XRm (XFin lon1 : XR) (XFin lat1 : XR) (XFin lon2 : XR) (XFin lat2 : XR).
Proof. rewrite !haversine_exact, great_circle_shift. reflexivity. Qed.
Lemma haversine_turn lon1 lat1 lon2 lat2 :
  haversine XRm (XFin (lon1 + 360) : XR) (XFin lat1 : XR) (XFin lon2 : XR) (XFin lat2 : XR) =
  haversine XRm (XFin lon1 : XR) (XFin lat1 : XR) (XFin lon2 : XR) (XFin lat2 : XR).
Proof. rewrite !haversine_exact, great_circle_turn. reflexivity. Qed.

Lemma neighbours_shift n (lata lona latb lonb : list R) c radius :
  length lata = n -> length lona = n -> length latb = n -> length lonb = n ->
  within_r (calc_distance_between_cml_endpoints XRm n (ofR lata) (ofR (map (fun x => x + c) lona)) (ofR latb) (ofR (map (fun x => x + c) lonb))) radius =
  within_r (calc_distance_between_cml_endpoints XRm n (ofR lata) (ofR lona) (ofR latb) (ofR lonb)) radius.
Proof.
  intros H1 H2 H3 H4.
  assert (E1 : length (ofR lata) = n) by (unfold ofR; rewrite map_length; auto).
  assert (E2 : length (ofR lona) = n) by (unfold ofR; rewrite map_length; auto).
  assert (E3 : length (ofR latb) = n) by (unfold ofR; rewrite map_length; auto).
  assert (E4 : length (ofR lonb) = n) by (unfold ofR; rewrite map_length; auto).
  assert (E5 : length (ofR (map (fun x => x + c) lona)) = n) by (unfold ofR; rewrite !map_length; auto).
  assert (E6 : length (ofR (map (fun x => x + c) lonb)) = n) by (unfold ofR; rewrite !map_length; auto).
  apply within_ext with n; [apply dist_square; auto..|]. intros i j Hi Hj.
  destruct (calc_distance_cell XRm n _ _ _ _ i j E1 E5 E3 E6 Hi Hj) as (_ & A & B & C & D).
  destruct (calc_distance_cell XRm n _ _ _ _ i j E1 E2 E3 E4 Hi Hj) as (_ & A' & B' & C' & D').
  assert (G : forall (l : list R) k, (k < n)%nat -> length l = n -> nget (ofR l) k = (XFin (get 0 l k) : XR)).
  { intros l k Hk Hl. unfold nget, ofR. rewrite get_map with (d := 0) by lia. reflexivity. }
  assert (G' : forall (l : list R) k, (k < n)%nat -> length l = n -> nget (ofR (map (fun x => x + c) l)) k = (XFin (get 0 l k + c) : XR)).
  { intros l k Hk Hl. rewrite (G (map (fun x => x + c) l) k); rewrite ?map_length; auto. rewrite get_map with (d := 0) by lia. reflexivity. }
  unfold neighbour. rewrite A, B, C, D, A', B', C', D'. rewrite !(G lata), !(G latb), !(G' lona), !(G' lonb), !(G lona), !(G lonb), !haversine_shift by auto.
  reflexivity.
Qed.
End Exact.
