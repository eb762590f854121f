(** Proofs about ordinary kriging in exact arithmetic: consequences. *)
From Coq Require Import List ZArith Bool Reals Lra Lia Permutation FinFun.
From Flocq Require Import Core.Raux.
From Verif Require Import Base Num NumF64 NumList NpOps RealSpec RealStat SpecGram_proofs5 FloatErr_proofs Idw_model Idw_spec Kriging_model Kriging_proofs
  OrdKrige_model LinAlg OrdKrige_spec OrdKrige_proofs OrdKrige_proofs2.
Import ListNotations.
Local Open Scope R_scope.

(** *** the exact inverse exists *)
Definition realpart (v : XR) : R := match (v : xr) with XFin r => r | _ => 0 end.
Definition exact_inverse (A : list (list XR)) : res (list (list XR)) :=
  let N := List.length A in
  match invert N (mget (map (map realpart) A)) with
  | inl (exist _ B _) => Ok (map ofR (map (fun i => map (B i) (seq 0 N)) (seq 0 N)))
  | inr _ => Err OtherError
  end.
Lemma realpart_ofR A : map (map realpart) (map ofR A) = A.
Proof.
  rewrite map_map, map_ext with (g := fun r => r); [apply map_id|]. intros r. unfold ofR. rewrite map_map, map_ext with (g := fun r => r); [apply map_id|reflexivity].
Qed.
Lemma exact_inverse_ok : exact_inv exact_inverse.
Proof.
  intros N A [L S]. unfold exact_inverse. rewrite realpart_ofR, map_length, L.
  destruct (invert N (mget A)) as [[B I]|[v K]]; [left|right; split; [reflexivity|exists v; exact K]].
  exists (map (fun i => map (B i) (seq 0 N)) (seq 0 N)). split; [|split; [reflexivity|]].
  - split; [rewrite map_length, seq_length; reflexivity|]. intros r Hr. apply in_map_iff in Hr as (i & <- & _). rewrite map_length, seq_length. reflexivity.
  - assert (G : forall i j, (i < N)%nat -> (j < N)%nat -> B i j = mget (map (fun i => map (B i) (seq 0 N)) (seq 0 N)) i j).
    { intros i j Hi Hj. unfold mget, rget. rewrite !get_map_seq by auto. reflexivity. }
    intros i j Hi Hj. destruct (I i j Hi Hj) as [I1 I2]. split; [rewrite <- I1|rewrite <- I2]; symmetry; apply mm_ext; auto.
Qed.

(** *** the spherical variogram *)
Lemma xdiv_real a b : b <> 0 -> xdiv (XFin a) (XFin b) = XFin (a / b).
Proof. intros. simpl. rewrite Req_bool_false by auto. reflexivity. Qed.
Lemma sph_real sill range nugget : 0 < range -> real_variogram (sph sill range nugget) (spherical_curve sill range nugget).
Proof.
  intros Hr d Hd. unfold sph, spherical, spherical_curve. cbn [p_sill p_range p_nugget].
  change (n_leb (XFin d : XR) (XFin range : XR)) with (Rle_bool d range).
  destruct (Rle_dec d range).
  - rewrite Rle_bool_true by auto.
    change (xadd (xmul (XFin (sill - nugget)) (xsub (xdiv (XFin (3 * d)) (XFin (2 * range))) (xdiv (XFin (d * (d * d))) (XFin (2 * (range * (range * range))))))) (XFin nugget)
      = XFin ((sill - nugget) * (3 / 2 * (d / range) - / 2 * (d / range) ^ 3) + nugget)).
    assert (P : 0 < range * (range * range)) by (apply Rmult_lt_0_compat; [|apply Rmult_lt_0_compat]; auto).
    rewrite !xdiv_real by lra. cbn [xsub xmul xadd xopp]. apply f_equal. field. lra.
  - rewrite Rle_bool_false by lra. change (XFin (sill - nugget + nugget) = XFin sill). apply f_equal. ring.
Qed.

Lemma sph_far sill range nugget d : 0 < range -> range <= d -> spherical_curve sill range nugget d = sill.
Proof.
  intros Hr Hd. unfold spherical_curve. destruct (Rle_dec d range); [|reflexivity]. replace d with range by lra. field. lra.
Qed.
Lemma sph_scale c sill range nugget d : spherical_curve (c * sill) range (c * nugget) d = c * spherical_curve sill range nugget d.
Proof. unfold spherical_curve. destruct (Rle_dec d range); ring. Qed.
Lemma sph_0 sill range nugget : 0 < range -> spherical_curve sill range nugget 0 = nugget.
Proof. intros. unfold spherical_curve. destruct (Rle_dec 0 range); [field; lra|lra]. Qed.

(** *** one call *)
Section One.
Variables (vg : XR -> XR) (g : R -> R) (inv : list (list XR) -> res (list (list XR))) (x y : list R) (rows cols : nat) (gx gy : list (list R)).
Hypothesis VG : real_variogram vg g.
Hypothesis INV : exact_inv inv.
Hypothesis LY : List.length y = List.length x.
Hypothesis N2 : (2 <= List.length x)%nat.
Hypothesis GX : is_grid rows cols gx.
Hypothesis GY : is_grid rows cols gy.
Let n := List.length x.
Let P k := rget (concat gx) k.
Let Q k := rget (concat gy) k.

(** what a result means *)
Lemma kriged_elim z zi sg : List.length z = n -> kriged vg inv x y z rows cols gx gy zi sg ->
  regular g x y /\ List.length zi = (rows * cols)%nat /\ List.length sg = (rows * cols)%nat /\
  forall k, (k < rows * cols)%nat ->
    (exists w mu, krige_sys g x y (P k) (Q k) w mu) /\
    forall w mu, krige_sys g x y (P k) (Q k) w mu ->
      rget zi k = tot (fun i => w i * rget z i) n /\ rget sg k = tot (fun i => w i * gam0 g x y (P k) (Q k) i) n - mu.
Proof using VG INV LY N2 GX GY.
  intros LZ K. destruct (call_cases vg g inv x y VG LY INV z rows cols gx gy N2 LZ GX GY) as [(RG & zi' & sg' & K' & L1 & L2 & H)|(_ & E)].
  2:{ exfalso. eapply kriged_raises; eauto. }
  destruct (kriged_det _ _ _ _ _ _ _ _ _ _ _ _ _ K K') as [<- <-].
  split; [exact RG|]. split; [exact L1|]. split; [exact L2|]. intros k Hk. destruct (H k Hk) as (w' & mu' & S & A & B). cbv zeta in *. fold (P k) (Q k) in S, A, B.
  split; [exists w', mu'; exact S|]. intros w mu H1. destruct (sys_unique g x y (P k) (Q k) w mu w' mu' RG H1 S) as [E ->]. rewrite A, B. split.
  - apply tot_ext. intros i Hi. rewrite E by auto. reflexivity.
  - f_equal. apply tot_ext. intros i Hi. rewrite E by auto. reflexivity.
Qed.

(** a result exists if the stations are regular *)
Lemma kriged_intro z zi sg : List.length z = n -> regular g x y -> List.length zi = (rows * cols)%nat -> List.length sg = (rows * cols)%nat ->
  (forall k, (k < rows * cols)%nat -> exists w mu, krige_sys g x y (P k) (Q k) w mu /\
     rget zi k = tot (fun i => w i * rget z i) n /\ rget sg k = tot (fun i => w i * gam0 g x y (P k) (Q k) i) n - mu) ->
  kriged vg inv x y z rows cols gx gy zi sg.
Proof using VG INV LY N2 GX GY.
  intros LZ RG L1 L2 H. destruct (call_cases vg g inv x y VG LY INV z rows cols gx gy N2 LZ GX GY) as [(_ & zi' & sg' & K & L1' & L2' & _)|(NR & _)]; [|contradiction].
  destruct (kriged_elim z zi' sg' LZ K) as (_ & _ & _ & V).
  assert (E1 : zi = zi').
  { apply get_ext with (d := 0); [lia|]. intros k Hk. rewrite L1 in Hk. destruct (H k Hk) as (w & mu & S & A & _).
    change (rget zi k = rget zi' k). rewrite A. symmetry. apply (proj2 (V k Hk) w mu S). }
  assert (E2 : sg = sg').
  { apply get_ext with (d := 0); [lia|]. intros k Hk. rewrite L2 in Hk. destruct (H k Hk) as (w & mu & S & _ & A).
    change (rget sg k = rget sg' k). rewrite A. symmetry. apply (proj2 (V k Hk) w mu S). }
  subst. exact K.
Qed.

Lemma krige_constant c zi sg : kriged vg inv x y (repeat c n) rows cols gx gy zi sg -> zi = repeat c (rows * cols).
Proof using VG INV LY N2 GX GY.
  intros K. destruct (kriged_elim (repeat c n) zi sg (repeat_length _ _) K) as (_ & L1 & _ & V).
  apply get_ext with (d := 0); [rewrite repeat_length; exact L1|]. intros k Hk. rewrite L1 in Hk. destruct (V k Hk) as [(w & mu & S) VV].
  change (rget zi k = get 0 (repeat c (rows * cols)) k). rewrite (proj1 (VV w mu S)), get_repeat by auto.
  rewrite (tot_ext _ (fun i => c * w i)) by (intros i Hi; unfold rget; rewrite get_repeat by auto; ring). rewrite tot_scal.
  destruct S as [S _]. fold n in S. rewrite S. ring.
Qed.

Lemma krige_exact z zi sg k i : List.length z = n -> kriged vg inv x y z rows cols gx gy zi sg ->
  (k < rows * cols)%nat -> (i < n)%nat -> P k = rget x i -> Q k = rget y i ->
  (forall j, (j < n)%nat -> j <> i -> 1 / 10 ^ 10 < rdist (rget x i) (rget y i) (rget x j) (rget y j)) ->
  rget zi k = rget z i /\ rget sg k = 0.
Proof using VG INV LY N2 GX GY.
  intros LZ K Hk Hi EP EQ D. destruct (kriged_elim z zi sg LZ K) as (_ & _ & _ & V). destruct (V k Hk) as [_ VV].
  assert (SELF : rdist (rget x i) (rget y i) (rget x i) (rget y i) = 0) by (unfold rdist; rewrite <- sqrt_0; f_equal; ring).
  assert (G0 : forall j, (j < n)%nat -> gam0 g x y (P k) (Q k) j = gam g x y j i).
  { intros j Hj. unfold gam0, gam. rewrite EP, EQ. cbv zeta. destruct (Nat.eqb_spec j i) as [->|NE].
    - rewrite SELF. destruct (Rle_dec 0 (1 / 10 ^ 10)) as [|C]; [reflexivity|]. exfalso. apply C. simpl. lra.
    - specialize (D j Hj NE). destruct (Rle_dec _ _) as [C|_]; [lra|]. rewrite rdist_sym. reflexivity. }
  destruct (VV (fun j => delta j i) 0) as [A B].
  - split; fold n.
    + rewrite (tot_ext _ (fun j => 1 * delta j i)) by (intros; ring). rewrite (tot_delta_r (fun _ => 1)) by auto. reflexivity.
    + intros j Hj. rewrite tot_delta_r by auto. rewrite G0 by auto. ring.
  - rewrite A, B. split.
    + rewrite (tot_ext _ (fun j => rget z j * delta j i)) by (intros; ring). apply tot_delta_r. auto.
    + rewrite (tot_ext _ (fun j => gam0 g x y (P k) (Q k) j * delta j i)) by (intros; ring). rewrite tot_delta_r by auto. rewrite G0 by auto.
      unfold gam. rewrite Nat.eqb_refl. ring.
Qed.

Lemma krige_linear a b z z' zi zi' sg sg' : List.length z = n -> List.length z' = n ->
  kriged vg inv x y z rows cols gx gy zi sg -> kriged vg inv x y z' rows cols gx gy zi' sg' ->
  sg = sg' /\ kriged vg inv x y (map2 (fun u v => a * u + b * v) z z') rows cols gx gy (map2 (fun u v => a * u + b * v) zi zi') sg.
Proof using VG INV LY N2 GX GY.
  intros LZ LZ' K K'. destruct (kriged_elim z zi sg LZ K) as (RG & L1 & L2 & V). destruct (kriged_elim z' zi' sg' LZ' K') as (_ & L1' & L2' & V').
  split.
  - apply get_ext with (d := 0); [lia|]. intros k Hk. rewrite L2 in Hk. destruct (V k Hk) as [(w & mu & S) VV]. destruct (V' k Hk) as [_ VV'].
    change (rget sg k = rget sg' k). rewrite (proj2 (VV w mu S)), (proj2 (VV' w mu S)). reflexivity.
  - apply kriged_intro; auto; try (rewrite map2_length; lia).
    intros k Hk. destruct (V k Hk) as [(w & mu & S) VV]. destruct (V' k Hk) as [_ VV']. exists w, mu. split; [exact S|]. split; [|apply VV; exact S].
    unfold rget at 1. rewrite get_map2 with (da := 0) (db := 0) by lia. fold (rget zi k) (rget zi' k). rewrite (proj1 (VV w mu S)), (proj1 (VV' w mu S)).
    rewrite <- !tot_scal, <- tot_add. apply tot_ext. intros i Hi. unfold rget at 3. rewrite get_map2 with (da := 0) (db := 0) by lia. unfold rget. ring.
Qed.

(** data of one call determine whether any call works *)
Lemma krige_any z z' zi sg : List.length z = n -> List.length z' = n -> kriged vg inv x y z rows cols gx gy zi sg ->
  exists zi', kriged vg inv x y z' rows cols gx gy zi' sg.
Proof using VG INV LY N2 GX GY.
  intros LZ LZ' K. destruct (kriged_elim z zi sg LZ K) as (RG & _).
  destruct (call_cases vg g inv x y VG LY INV z' rows cols gx gy N2 LZ' GX GY) as [(_ & zi' & sg' & K' & _)|(NR & _)]; [|contradiction].
  exists zi'. destruct (krige_linear 1 1 z z' zi zi' sg sg' LZ LZ' K K') as [-> _]. exact K'.
Qed.

Lemma krige_affine a b z zi sg : List.length z = n -> kriged vg inv x y z rows cols gx gy zi sg ->
  kriged vg inv x y (map (fun v => a * v + b) z) rows cols gx gy (map (fun v => a * v + b) zi) sg.
Proof using VG INV LY N2 GX GY.
  intros LZ K. destruct (krige_any z (repeat 1 n) zi sg LZ (repeat_length _ _) K) as (zi1 & K1).
  pose proof (krige_constant 1 zi1 sg K1) as E1. destruct (kriged_elim z zi sg LZ K) as (_ & L1 & _ & _).
  destruct (krige_linear a b z (repeat 1 n) zi zi1 sg sg LZ (repeat_length _ _) K K1) as [_ KK].
  assert (M : forall (u : list R) m, List.length u = m -> map2 (fun u v => a * u + b * v) u (repeat 1 m) = map (fun v => a * v + b) u).
  { clear. induction u as [|r u IH]; intros m <-; [reflexivity|]. change ((a * r + b * 1) :: map2 (fun u v => a * u + b * v) u (repeat 1 (List.length u)) = (a * r + b) :: map (fun v => a * v + b) u).
    rewrite IH by auto. f_equal. ring. }
  rewrite E1, !M in KK by auto. exact KK.
Qed.

(** places that see the same variogram values get the same result *)
Lemma krige_same z zi sg k k' : List.length z = n -> kriged vg inv x y z rows cols gx gy zi sg ->
  (k < rows * cols)%nat -> (k' < rows * cols)%nat ->
  (forall i, (i < n)%nat -> gam0 g x y (P k) (Q k) i = gam0 g x y (P k') (Q k') i) -> rget zi k = rget zi k' /\ rget sg k = rget sg k'.
Proof using VG INV LY N2 GX GY.
  intros LZ K Hk Hk' E. destruct (kriged_elim z zi sg LZ K) as (_ & _ & _ & V). destruct (V k Hk) as [(w & mu & S) VV]. destruct (V k' Hk') as [_ VV'].
  assert (S' : krige_sys g x y (P k') (Q k') w mu).
  { destruct S as [S1 S2]. split; [exact S1|]. intros i Hi. rewrite <- E by auto. auto. }
  destruct (VV w mu S) as [-> ->]. destruct (VV' w mu S') as [-> ->]. split; [reflexivity|].
  f_equal. apply tot_ext. intros i Hi. rewrite E by auto. reflexivity.
Qed.

(** the variances *)
Lemma gam_sym i j : gam g x y i j = gam g x y j i.
Proof using. clear. unfold gam. rewrite Nat.eqb_sym. destruct (Nat.eqb j i); [reflexivity|]. rewrite rdist_sym. reflexivity. Qed.

Lemma tot_minus (f h : nat -> R) m : tot (fun i => f i - h i) m = tot f m - tot h m.
Proof using. clear. rewrite (tot_ext _ (fun i => f i + (-1) * h i)) by (intros; ring). rewrite tot_add, tot_scal. ring. Qed.

(** for weights adding up to 1, against the solution *)
Lemma variance_identity p q w mu v : krige_sys g x y p q w mu -> tot v n = 1 ->
  est_var g x y p q w = tot (fun i => w i * gam0 g x y p q i) n - mu /\
  est_var g x y p q v = est_var g x y p q w - tot (fun i => tot (fun j => (v i - w i) * (v j - w j) * gam g x y i j) n) n.
Proof using.
  clear VG INV LY N2 GX GY. intros [S1 S2] Hv. fold n in S1, S2.
  (* sum over stations of u_i times row i *)
  assert (R1 : forall u, tot (fun i => tot (fun j => u i * w j * gam g x y i j) n) n = tot (fun i => u i * gam0 g x y p q i) n + mu * tot u n).
  { intros u. rewrite <- tot_scal, <- tot_add. apply tot_ext. intros i Hi. rewrite <- (S2 i Hi).
    rewrite (tot_ext (fun j => u i * w j * gam g x y i j) (fun j => u i * (gam g x y i j * w j))) by (intros; ring). rewrite tot_scal. ring. }
  assert (R2 : forall u, tot (fun i => tot (fun j => w i * u j * gam g x y i j) n) n = tot (fun i => u i * gam0 g x y p q i) n + mu * tot u n).
  { intros u. rewrite <- R1, tot_swap. apply tot_ext. intros j Hj. apply tot_ext. intros i Hi. rewrite (gam_sym j i). ring. }
  unfold est_var. fold n. split; [rewrite R1, S1; ring|].
  rewrite (tot_ext (fun i => tot (fun j => (v i - w i) * (v j - w j) * gam g x y i j) n)
    (fun i => (tot (fun j => v i * v j * gam g x y i j) n - tot (fun j => v i * w j * gam g x y i j) n) - (tot (fun j => w i * v j * gam g x y i j) n - tot (fun j => w i * w j * gam g x y i j) n))).
  - rewrite !tot_minus, (R1 v), (R2 v), (R1 w), S1, Hv. ring.
  - intros i Hi. rewrite <- !tot_minus. apply tot_ext. intros. ring.
Qed.

Lemma krige_variance z zi sg k : List.length z = n -> kriged vg inv x y z rows cols gx gy zi sg -> (k < rows * cols)%nat ->
  exists w, tot w n = 1 /\ rget zi k = tot (fun i => w i * rget z i) n /\ rget sg k = est_var g x y (P k) (Q k) w /\
    forall v, tot v n = 1 -> est_var g x y (P k) (Q k) v = rget sg k - tot (fun i => tot (fun j => (v i - w i) * (v j - w j) * gam g x y i j) n) n.
Proof using VG INV LY N2 GX GY.
  intros LZ K Hk. destruct (kriged_elim z zi sg LZ K) as (_ & _ & _ & V). destruct (V k Hk) as [(w & mu & S) VV].
  exists w. destruct (VV w mu S) as [A B]. split; [apply S|]. split; [exact A|].
  assert (E : rget sg k = est_var g x y (P k) (Q k) w) by (rewrite B; symmetry; apply (variance_identity _ _ w mu w S); apply S).
  split; [exact E|]. intros v Hv. rewrite E. apply (variance_identity _ _ w mu v S Hv).
Qed.
End One.

(** *** two calls *)
Section Two.
Variables (vg vg' : XR -> XR) (g g' : R -> R) (inv inv' : list (list XR) -> res (list (list XR))) (x y z x' y' z' : list R)
  (rows cols rows' cols' : nat) (gx gy gx' gy' : list (list R)) (c : R).
Hypothesis VG : real_variogram vg g.
Hypothesis VG' : real_variogram vg' g'.
Hypothesis INV : exact_inv inv.
Hypothesis INV' : exact_inv inv'.
Hypothesis LY : List.length y = List.length x.
Hypothesis LZ : List.length z = List.length x.
Hypothesis LX' : List.length x' = List.length x.
Hypothesis LY' : List.length y' = List.length x.
Hypothesis LZ' : List.length z' = List.length x.
Hypothesis N2 : (2 <= List.length x)%nat.
Hypothesis GX : is_grid rows cols gx.
Hypothesis GY : is_grid rows cols gy.
Hypothesis GX' : is_grid rows' cols' gx'.
Hypothesis GY' : is_grid rows' cols' gy'.
Hypothesis RC : (rows' * cols' = rows * cols)%nat.
Let n := List.length x.

Lemma transport zi sg : (regular g x y -> regular g' x' y') ->
  (forall k w mu, (k < rows * cols)%nat -> krige_sys g x y (rget (concat gx) k) (rget (concat gy) k) w mu ->
     exists w' mu', krige_sys g' x' y' (rget (concat gx') k) (rget (concat gy') k) w' mu' /\
       tot (fun i => w' i * rget z' i) n = tot (fun i => w i * rget z i) n /\
       tot (fun i => w' i * gam0 g' x' y' (rget (concat gx') k) (rget (concat gy') k) i) n - mu' =
       c * (tot (fun i => w i * gam0 g x y (rget (concat gx) k) (rget (concat gy) k) i) n - mu)) ->
  kriged vg inv x y z rows cols gx gy zi sg -> kriged vg' inv' x' y' z' rows' cols' gx' gy' zi (map (Rmult c) sg).
Proof using VG VG' INV INV' LY LZ LX' LY' LZ' N2 GX GY GX' GY' RC.
  intros HR HT K. destruct (kriged_elim vg g inv x y rows cols gx gy VG INV LY N2 GX GY z zi sg LZ K) as (RG & L1 & L2 & V).
  apply (kriged_intro vg' g' inv' x' y' rows' cols' gx' gy'); auto; try (rewrite ?map_length; lia).
  intros k Hk. rewrite RC in Hk. destruct (V k Hk) as [(w & mu & S) VV]. destruct (HT k w mu Hk S) as (w' & mu' & S' & A & B).
  exists w', mu'. split; [exact S'|]. rewrite LX'. fold n. rewrite A, B. destruct (VV w mu S) as [-> E]. split; [reflexivity|].
  unfold rget at 1. rewrite get_map with (d := 0) by lia. fold (rget sg k). rewrite E. reflexivity.
Qed.
End Two.

Lemma map_one l : map (Rmult 1) l = l.
Proof. rewrite map_ext with (g := fun r => r); [apply map_id|intros; ring]. Qed.

(** only distances matter *)
Lemma krige_distances vg g inv x y z rows cols gx gy x' y' gx' gy' zi sg :
  real_variogram vg g -> exact_inv inv -> List.length y = List.length x -> List.length z = List.length x ->
  List.length x' = List.length x -> List.length y' = List.length x -> (2 <= List.length x)%nat ->
  is_grid rows cols gx -> is_grid rows cols gy -> is_grid rows cols gx' -> is_grid rows cols gy' ->
  (forall i j, (i < List.length x)%nat -> (j < List.length x)%nat ->
     rdist (rget x' i) (rget y' i) (rget x' j) (rget y' j) = rdist (rget x i) (rget y i) (rget x j) (rget y j)) ->
  (forall k i, (k < rows * cols)%nat -> (i < List.length x)%nat ->
     rdist (rget (concat gx') k) (rget (concat gy') k) (rget x' i) (rget y' i) = rdist (rget (concat gx) k) (rget (concat gy) k) (rget x i) (rget y i)) ->
  kriged vg inv x y z rows cols gx gy zi sg -> kriged vg inv x' y' z rows cols gx' gy' zi sg.
Proof.
  intros VG INV LY LZ LX' LY' N2 GX GY GX' GY' D D0 K. rewrite <- (map_one sg).
  assert (EG : forall i j, (i < List.length x)%nat -> (j < List.length x)%nat -> gam g x' y' i j = gam g x y i j).
  { intros i j Hi Hj. unfold gam. rewrite D by auto. reflexivity. }
  apply (transport vg vg g g inv inv x y z x' y' z rows cols rows cols gx gy gx' gy' 1); auto.
  - intros RG w mu H1 H2. rewrite LX' in *. apply RG; [exact H1|]. intros i Hi. rewrite <- (H2 i Hi). f_equal. apply tot_ext. intros j Hj. rewrite EG by auto. reflexivity.
  - intros k w mu Hk S. exists w, mu.
    assert (E0 : forall i, (i < List.length x)%nat -> gam0 g x' y' (rget (concat gx') k) (rget (concat gy') k) i = gam0 g x y (rget (concat gx) k) (rget (concat gy) k) i).
    { intros i Hi. unfold gam0. rewrite D0 by auto. reflexivity. }
    split; [|split; [reflexivity|]].
    + destruct S as [S1 S2]. split; rewrite LX'; [exact S1|]. intros i Hi. rewrite E0 by auto. rewrite <- (S2 i Hi). f_equal. apply tot_ext. intros j Hj. rewrite EG by auto. reflexivity.
    + rewrite Rmult_1_l. f_equal. apply tot_ext. intros i Hi. rewrite E0 by auto. reflexivity.
Qed.

(** a multiple of the variogram *)
Lemma krige_scale vg vg' g c inv x y z rows cols gx gy zi sg : real_variogram vg g -> real_variogram vg' (fun d => c * g d) -> c <> 0 ->
  exact_inv inv -> List.length y = List.length x -> List.length z = List.length x -> (2 <= List.length x)%nat ->
  is_grid rows cols gx -> is_grid rows cols gy ->
  kriged vg inv x y z rows cols gx gy zi sg -> kriged vg' inv x y z rows cols gx gy zi (map (Rmult c) sg).
Proof.
  intros VG VG' C0 INV LY LZ N2 GX GY K.
  assert (EG : forall i j, gam (fun d => c * g d) x y i j = c * gam g x y i j) by (intros; unfold gam; destruct (Nat.eqb i j); ring).
  assert (E0 : forall p q i, gam0 (fun d => c * g d) x y p q i = c * gam0 g x y p q i) by (intros; unfold gam0; cbv zeta; destruct (Rle_dec _ _); ring).
  assert (ET : forall w i, tot (fun j => gam (fun d => c * g d) x y i j * w j) (List.length x) = c * tot (fun j => gam g x y i j * w j) (List.length x)).
  { intros. rewrite <- tot_scal. apply tot_ext. intros. rewrite EG. ring. }
  apply (transport vg vg' g (fun d => c * g d) inv inv x y z x y z rows cols rows cols gx gy gx gy c); auto.
  - intros RG w mu H1 H2. destruct (RG w (mu / c)) as [A B]; [exact H1| |split; [exact A|]].
    + intros i Hi. specialize (H2 i Hi). rewrite ET in H2. apply (Rmult_eq_reg_l c); [|exact C0]. replace (c * (tot (fun j => gam g x y i j * w j) (List.length x) - mu / c)) with (c * tot (fun j => gam g x y i j * w j) (List.length x) - mu) by (field; auto). lra.
    + apply (Rmult_eq_reg_r (/ c)); [fold (mu / c); rewrite B; ring|apply Rinv_neq_0_compat; auto].
  - intros k w mu Hk [S1 S2]. exists w, (c * mu). split; [|split; [reflexivity|]].
    + split; [exact S1|]. intros i Hi. rewrite ET, E0, <- (S2 i Hi). ring.
    + rewrite (tot_ext _ (fun i => c * (w i * gam0 g x y (rget (concat gx) k) (rget (concat gy) k) i))) by (intros; rewrite E0; ring). rewrite tot_scal. ring.
Qed.

(** *** the order of the stations *)
Lemma NoDup_map_in {A B} (f : A -> B) l : NoDup l -> (forall a b, In a l -> In b l -> f a = f b -> a = b) -> NoDup (map f l).
Proof.
  induction 1 as [|a l NI ND IH]; intros H; [constructor|]. cbn [map]. constructor.
  - intros C. apply in_map_iff in C as (b & E & Hb). apply H in E; [subst; contradiction|right; auto|left; auto].
  - apply IH. intros. apply H; auto; right; auto.
Qed.
Lemma tot_perm (f : nat -> nat) m : (forall i, (i < m)%nat -> (f i < m)%nat) -> (forall i j, (i < m)%nat -> (j < m)%nat -> f i = f j -> i = j) ->
  forall h, tot (fun i => h (f i)) m = tot h m.
Proof.
  intros B I h. unfold tot. rewrite <- (map_map f h). apply rsum_perm. apply Permutation_map. apply NoDup_Permutation_bis.
  - apply NoDup_map_in; [apply seq_NoDup|]. intros i j Hi Hj. apply in_seq in Hi, Hj. apply I; lia.
  - rewrite map_length. lia.
  - intros a Ha. apply in_map_iff in Ha as (i & <- & Hi). apply in_seq in Hi. apply in_seq. pose proof (B i ltac:(lia)). lia.
Qed.

Lemma nth_combine3 (x y z : list R) i : List.length y = List.length x -> List.length z = List.length x ->
  nth i (combine (combine x y) z) ((0, 0), 0) = ((rget x i, rget y i), rget z i).
Proof. intros. rewrite combine_nth by (rewrite combine_length; lia). rewrite combine_nth by lia. reflexivity. Qed.

Lemma perm_index (x y z x' y' z' : list R) : List.length y = List.length x -> List.length z = List.length x ->
  List.length y' = List.length x' -> List.length z' = List.length x' ->
  Permutation (combine (combine x y) z) (combine (combine x' y') z') ->
  List.length x' = List.length x /\ exists f, bFun (List.length x) f /\ bInjective (List.length x) f /\
    forall i, (i < List.length x)%nat -> rget x' i = rget x (f i) /\ rget y' i = rget y (f i) /\ rget z' i = rget z (f i).
Proof.
  intros LY LZ LY' LZ' HP. apply (Permutation_nth _ _ ((0, 0), 0)) in HP. cbv zeta in HP. destruct HP as (L & f & BF & BI & H).
  rewrite !combine_length in *. rewrite LY, LZ, LY', LZ', !Nat.min_id in *. split; [exact L|]. exists f. split; [exact BF|]. split; [exact BI|].
  intros i Hi. specialize (H i Hi). rewrite !nth_combine3 in H by auto. injection H as -> -> ->. auto.
Qed.

Lemma krige_order vg g inv x y z x' y' z' rows cols gx gy zi sg :
  real_variogram vg g -> exact_inv inv -> List.length y = List.length x -> List.length z = List.length x ->
  List.length y' = List.length x' -> List.length z' = List.length x' -> (2 <= List.length x)%nat ->
  is_grid rows cols gx -> is_grid rows cols gy ->
  Permutation (combine (combine x y) z) (combine (combine x' y') z') ->
  kriged vg inv x y z rows cols gx gy zi sg -> kriged vg inv x' y' z' rows cols gx gy zi sg.
Proof.
  intros VG INV LY LZ LY' LZ' N2 GX GY HP K.
  destruct (perm_index x y z x' y' z' LY LZ LY' LZ' HP) as (LX & f & BF & BI & H).
  destruct (perm_index x' y' z' x y z LY' LZ' LY LZ (Permutation_sym HP)) as (_ & f' & BF' & BI' & H').
  rewrite LX in *. rewrite <- (map_one sg).
  apply (transport vg vg g g inv inv x y z x' y' z' rows cols rows cols gx gy gx gy 1); auto; try congruence.
  - intros RG w mu H1 H2. rewrite LX in *.
    assert (EG : forall i j, (i < List.length x)%nat -> (j < List.length x)%nat -> gam g x y i j = gam g x' y' (f' i) (f' j)).
    { intros i j Hi Hj. destruct (H' i Hi) as (A1 & A2 & _). destruct (H' j Hj) as (B1 & B2 & _). unfold gam. rewrite A1, A2, B1, B2.
      destruct (Nat.eqb_spec i j) as [->|NE]; [rewrite Nat.eqb_refl; reflexivity|].
      destruct (Nat.eqb_spec (f' i) (f' j)) as [E|_]; [apply BI' in E; auto; contradiction|reflexivity]. }
    destruct (RG (fun i => w (f' i)) mu) as [A B].
    + rewrite (tot_perm f' (List.length x) BF' BI' w). exact H1.
    + intros i Hi. rewrite <- (H2 (f' i) (BF' i Hi)). f_equal.
      rewrite <- (tot_perm f' (List.length x) BF' BI' (fun j => gam g x' y' (f' i) j * w j)). apply tot_ext. intros j Hj. rewrite EG by auto. reflexivity.
    + split; [|exact B]. intros m Hm. destruct (proj1 (bInjective_bSurjective BF') BI' m Hm) as (i & Hi & <-). apply A. exact Hi.
  - intros k w mu Hk [S1 S2]. exists (fun i => w (f i)), mu.
    assert (EG : forall i j, (i < List.length x)%nat -> (j < List.length x)%nat -> gam g x' y' i j = gam g x y (f i) (f j)).
    { intros i j Hi Hj. destruct (H i Hi) as (A1 & A2 & _). destruct (H j Hj) as (B1 & B2 & _). unfold gam. rewrite A1, A2, B1, B2.
      destruct (Nat.eqb_spec i j) as [->|NE]; [rewrite Nat.eqb_refl; reflexivity|].
      destruct (Nat.eqb_spec (f i) (f j)) as [E|_]; [apply BI in E; auto; contradiction|reflexivity]. }
    assert (E0 : forall i, (i < List.length x)%nat -> gam0 g x' y' (rget (concat gx) k) (rget (concat gy) k) i = gam0 g x y (rget (concat gx) k) (rget (concat gy) k) (f i)).
    { intros i Hi. destruct (H i Hi) as (A1 & A2 & _). unfold gam0. rewrite A1, A2. reflexivity. }
    split; [|split].
    + split; rewrite LX; [rewrite (tot_perm f (List.length x) BF BI w); exact S1|].
      intros i Hi. rewrite E0 by auto. rewrite <- (S2 (f i) (BF i Hi)). f_equal.
      rewrite <- (tot_perm f (List.length x) BF BI (fun j => gam g x y (f i) j * w j)). apply tot_ext. intros j Hj. rewrite EG by auto. reflexivity.
    + rewrite <- (tot_perm f (List.length x) BF BI (fun i => w i * rget z i)). apply tot_ext. intros i Hi. destruct (H i Hi) as (_ & _ & ->). reflexivity.
    + rewrite Rmult_1_l. f_equal. rewrite <- (tot_perm f (List.length x) BF BI (fun i => w i * gam0 g x y (rget (concat gx) k) (rget (concat gy) k) i)).
      apply tot_ext. intros i Hi. rewrite E0 by auto. reflexivity.
Qed.

(** *** failures *)
Lemma krige_single vg inv a b v rows cols gx gy : krige_raises vg inv [a] [b] [v] rows cols gx gy ValueError.
Proof. reflexivity. Qed.

(** two stations at one place, with a variogram that vanishes there *)
Lemma krige_duplicate vg g inv x y z rows cols gx gy i j :
  real_variogram vg g -> exact_inv inv -> List.length y = List.length x -> List.length z = List.length x ->
  is_grid rows cols gx -> is_grid rows cols gy ->
  (i < j < List.length x)%nat -> rget x i = rget x j -> rget y i = rget y j -> g 0 = 0 ->
  krige_raises vg inv x y z rows cols gx gy OtherError.
Proof.
  intros VG INV LY LZ GX GY Hij EX EY G0.
  destruct (call_cases vg g inv x y VG LY INV z rows cols gx gy ltac:(lia) LZ GX GY) as [(RG & _)|(_ & E)]; [|exact E]. exfalso.
  assert (SELF : forall a b, rdist a b a b = 0) by (intros; unfold rdist; rewrite <- sqrt_0; f_equal; ring).
  assert (EG : forall k, (k < List.length x)%nat -> gam g x y k i = gam g x y k j).
  { intros k Hk. unfold gam. rewrite EX, EY.
    destruct (Nat.eqb_spec k i) as [N1|N1]; destruct (Nat.eqb_spec k j) as [N3|N3]; auto; try lia; rewrite ?N1, ?N3, ?EX, ?EY, ?SELF, ?G0; auto. }
  destruct (RG (fun k => delta k i - delta k j) 0) as [A _].
  - rewrite tot_minus. rewrite (tot_ext (fun k => delta k i) (fun k => 1 * delta k i)), (tot_ext (fun k => delta k j) (fun k => 1 * delta k j)) by (intros; ring). rewrite !(tot_delta_r (fun _ => 1)) by lia. ring.
  - intros k Hk. rewrite (tot_ext _ (fun l => gam g x y k l * delta l i - gam g x y k l * delta l j)) by (intros; ring).
    rewrite tot_minus, !tot_delta_r, EG by (auto; lia). ring.
  - specialize (A i ltac:(lia)). rewrite delta_same, delta_diff in A by lia. lra.
Qed.
