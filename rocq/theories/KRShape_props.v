(** * Property C119: how the rain rate depends on length, coefficients and threshold *)
From Coq Require Import List ZArith Bool String Reals Lra Lia.
From Verif Require Import Base Num NumF64 NumList RealSpec Libm Libm64 KR_model KR_spec KRShape_proofs.
Import ListNotations.
Local Open Scope nat_scope.

(** a longer link or a larger coefficient [a] never gives more rain from the same attenuation *)
Theorem C119_longer_link_less_rain :
  forall (L : libm F64) (cubic : list F64 -> list F64 -> F64 -> F64), pow_sane L -> pow_mono L ->
  forall (A : list F64) (L_km L_km' a a' b R_min : F64) ap R R',
  positive b -> nonneg a -> nonneg L_km -> n_leb a a' = true -> n_leb L_km L_km' = true -> finite a' -> finite L_km' ->
  positive (n_mul a L_km) -> finite (n_mul a' L_km') ->
  calc_R_from_A L cubic A L_km None None (Some (CScalar a)) (Some (CScalar b)) ap R_min = Ok R ->
  calc_R_from_A L cubic A L_km' None None (Some (CScalar a')) (Some (CScalar b)) ap R_min = Ok R' ->
  forall i, i < List.length A -> ~ missing (get n_nan A i) -> n_leb (get n_nan R' i) (get n_nan R i) = true.
Proof. exact (calc_anti F64sem). Qed.
Print Assumptions C119_longer_link_less_rain.

Theorem C119_longer_link_less_rain_exact :
  forall (cubic : list XR -> list XR -> XR -> XR) (A : list XR) (L_km L_km' a a' b R_min : XR) ap R R',
  positive b -> nonneg a -> nonneg L_km -> n_leb a a' = true -> n_leb L_km L_km' = true -> finite a' -> finite L_km' ->
  positive (n_mul a L_km) -> finite (n_mul a' L_km') ->
  calc_R_from_A XRm cubic A L_km None None (Some (CScalar a)) (Some (CScalar b)) ap R_min = Ok R ->
  calc_R_from_A XRm cubic A L_km' None None (Some (CScalar a')) (Some (CScalar b)) ap R_min = Ok R' ->
  forall i, i < List.length A -> ~ missing (get n_nan A i) -> n_leb (get n_nan R' i) (get n_nan R i) = true.
Proof. exact (fun cubic => calc_anti XRsem XRm cubic XRm_pow_sane XRm_pow_mono). Qed.
Print Assumptions C119_longer_link_less_rain_exact.

(** raising the threshold: exactly the rates below the new threshold become zero *)
Theorem C119_threshold : forall (L : libm F64) (cubic : list F64 -> list F64 -> F64 -> F64)
  (A : list F64) (L_km a b R_min R_min' : F64) ap R R',
  positive b -> n_leb R_min R_min' = true ->
  calc_R_from_A L cubic A L_km None None (Some (CScalar a)) (Some (CScalar b)) ap R_min = Ok R ->
  calc_R_from_A L cubic A L_km None None (Some (CScalar a)) (Some (CScalar b)) ap R_min' = Ok R' ->
  forall i, i < List.length A ->
  get n_nan R' i = if n_ltb (get n_nan R i) R_min' then n_ofZ 0 else get n_nan R i.
Proof. exact (calc_threshold F64sem). Qed.
Print Assumptions C119_threshold.

(** only the product of [a] and the length matters *)
Theorem C119_only_the_product_matters : forall (L : libm F64) (cubic : list F64 -> list F64 -> F64 -> F64)
  (A : list F64) (L_km L_km' a a' b R_min : F64) ap,
  positive b -> n_mul a L_km = n_mul a' L_km' ->
  calc_R_from_A L cubic A L_km None None (Some (CScalar a)) (Some (CScalar b)) ap R_min =
  calc_R_from_A L cubic A L_km' None None (Some (CScalar a')) (Some (CScalar b)) ap R_min.
Proof. exact (calc_product F64sem). Qed.
Print Assumptions C119_only_the_product_matters.

(** exact arithmetic: only attenuation per length matters *)
Theorem C119_attenuation_per_length_exact :
  forall (cubic : list XR -> list XR -> XR -> XR) (A : list R) c a b l R_min ap, (0 < a -> 0 < b -> 0 < l -> 0 < c ->
  calc_R_from_A XRm cubic (ofR (map (Rmult c) A)) (XFin (c * l) : XR) None None (Some (CScalar (XFin a : XR))) (Some (CScalar (XFin b : XR))) ap (XFin R_min : XR) =
  calc_R_from_A XRm cubic (ofR A) (XFin l : XR) None None (Some (CScalar (XFin a : XR))) (Some (CScalar (XFin b : XR))) ap (XFin R_min : XR))%R.
Proof. exact calc_ratio. Qed.
Print Assumptions C119_attenuation_per_length_exact.

(** c^b times the attenuation and c times the threshold: c times the rain *)
Theorem C119_homogeneous_exact :
  forall (cubic : list XR -> list XR -> XR -> XR) (A : list R) c a b l R_min ap, (0 < a -> 0 < b -> 0 < l -> 0 < c ->
  exists Rs, calc_R_from_A XRm cubic (ofR A) (XFin l : XR) None None (Some (CScalar (XFin a : XR))) (Some (CScalar (XFin b : XR))) ap (XFin R_min : XR) = Ok (ofR Rs) /\
  calc_R_from_A XRm cubic (ofR (map (Rmult (Rpower c b)) A)) (XFin l : XR) None None (Some (CScalar (XFin a : XR))) (Some (CScalar (XFin b : XR))) ap (XFin (c * R_min) : XR) = Ok (ofR (map (Rmult c) Rs)))%R.
Proof. exact calc_homogeneous. Qed.
Print Assumptions C119_homogeneous_exact.

(** a larger exponent: less rain from attenuations above a * l (1 mm/h), more below *)
Theorem C119_exponent_exact :
  forall (cubic : list XR -> list XR -> XR -> XR) (A : list R) a b b' l R_min ap, (0 < a -> 0 < l -> 0 < b -> b <= b' ->
  exists Rs Rs', calc_R_from_A XRm cubic (ofR A) (XFin l : XR) None None (Some (CScalar (XFin a : XR))) (Some (CScalar (XFin b : XR))) ap (XFin R_min : XR) = Ok (ofR Rs) /\
  calc_R_from_A XRm cubic (ofR A) (XFin l : XR) None None (Some (CScalar (XFin a : XR))) (Some (CScalar (XFin b' : XR))) ap (XFin R_min : XR) = Ok (ofR Rs') /\
  forall i, (i < List.length A)%nat -> (a * l <= rget A i -> rget Rs' i <= rget Rs i) /\ (rget A i <= a * l -> rget Rs i <= rget Rs' i))%R.
Proof. exact calc_exponent. Qed.
Print Assumptions C119_exponent_exact.

(** 1 dB/km instead of 1 dB per 2 km, exponent 1/2 *)
Example C119_case_length : forall cubic,
  match calc_R_from_A F64demo cubic [#(-1); #2; #4; fNaN] #1 None None (Some (CScalar #1)) (Some (CScalar (f_div #1 #2))) "ITU_2005" #1,
        calc_R_from_A F64demo cubic [#(-1); #2; #4; fNaN] #2 None None (Some (CScalar #1)) (Some (CScalar (f_div #1 #2))) "ITU_2005" #1,
        calc_R_from_A F64demo cubic [#(-1); #2; #4; fNaN] #1 None None (Some (CScalar #1)) (Some (CScalar (f_div #1 #2))) "ITU_2005" #5 with
  | Ok R, Ok R', Ok R'' => f_same_list R [#0; #4; #16; fNaN] && f_same_list R' [#0; #1; #4; fNaN] && f_same_list R'' [#0; #0; #16; fNaN]
  | _, _, _ => false end = true.
Proof. intros; vm_compute; reflexivity. Qed.
