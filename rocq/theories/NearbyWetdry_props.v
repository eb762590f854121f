(** * Properties C32-C36: nearby-link wet/dry classification *)
From Coq Require Import List ZArith Bool Reals Lia.
From Verif Require Import Base Num NumF64 NumList Libm Libm64 RealStat Median Haversine_model Haversine_spec Haversine_proofs
  NearbyWetdry_model NearbyWetdry_spec NearbyWetdry_proofs.
Import ListNotations.
Local Open Scope nat_scope.

Theorem C32_neighbour_relation : forall (L : libm F64) n lata lona latb lonb radius,
  odd_sin L -> n_ltb (n_ofZ 0) radius = true ->
  length lata = n -> length lona = n -> length latb = n -> length lonb = n ->
  let w := within_r (calc_distance_between_cml_endpoints L n lata lona latb lonb) radius in
  forall i j, i < n -> j < n ->
    get false (get [] w i) i = true /\ get false (get [] w i) j = get false (get [] w j) i.
Proof. exact neighbour_sym_float. Qed.
Print Assumptions C32_neighbour_relation.

Example C32_case : let w := within_r (calc_distance_between_cml_endpoints F64cr 2 [#48; #47] [#10; #11] [#48; #46] [#11; #12]) #15 in
  get false (get [] w 1) 1 = true /\ get false (get [] w 0) 1 = get false (get [] w 1) 0.
Proof.
  cbv zeta. pose proof (neighbour_sym_float F64cr 2 [#48; #47] [#10; #11] [#48; #46] [#11; #12] #15 F64cr_odd_sin eq_refl eq_refl eq_refl eq_refl eq_refl) as H.
  cbv zeta in H. split; [apply (H 1 0); lia|apply (H 0 1); lia].
Qed.

Theorem C33_values_and_unclassified : forall T (pmin : list (list F64)) lens d radius thrP thrPL ml interval tp mh,
  call_ok T pmin lens d radius interval tp mh ->
  exists wet F dP, nearby_wetdry T pmin lens d radius thrP thrPL ml interval tp mh = Ok (wet, F) /\
  length wet = length pmin /\ length F = length pmin /\
  (forall i t, i < length pmin -> t < T -> is_drop pmin (tp * 60 / interval) (mh * 60 / interval) dP i t) /\
  forall i, i < length pmin ->
    let nb := neighbours d radius (length pmin) i in
    length (get [] wet i) = T /\ length (get [] F i) = T /\
    forall t, t < T ->
    (cell wet i t = n_nan \/ cell wet i t = n_ofZ 0 \/ cell wet i t = n_ofZ 1) /\
    (length nb <= ml -> cell wet i t = n_nan /\ cell F i t = n_nan) /\
    (length (numbers (map (fun j => dP j t) nb)) <= ml -> cell wet i t = n_nan /\ n_isnan (cell F i t) = true).
Proof. exact (values_and_unclassified F64sem). Qed.
Print Assumptions C33_values_and_unclassified.

(** two links, zero distances; heavy rain at step 4, both links; one hour steps *)
Definition demo_dist (n : nat) : distances F64 := let z := repeat (repeat #0 n) n in Build_distances z z z z.
Definition thr_P : F64 := f_div #(-14) #10.
Definition thr_PL : F64 := f_div #(-7) #10.
Definition demo (ml : nat) := nearby_wetdry 8
  [[#(-50); #(-50); #(-50); #(-50); #(-60); #(-50); #(-50); #(-50)]; [fNaN; #(-50); #(-50); #(-50); #(-58); #(-50); #(-50); #(-50)]]
  [#5; #5] (demo_dist 2) #15 thr_P thr_PL ml 60 2 1.

(** the first step has data for one link only; with min_links = 2 nothing is classified *)
Example C33_case :
  match demo 1 with Ok (w, _) => f_same_list (get [] w 0) [fNaN; #0; #1; #1; #1; #1; #1; #1] | Err _ => false end &&
  match demo 2 with Ok (w, _) => f_same_list (get [] w 0) (repeat fNaN 8) | Err _ => false end = true.
Proof. vm_compute. reflexivity. Qed.

Example C33_case_hypothesis : call_ok 8
  [[#(-50); #(-50); #(-50); #(-50); #(-60); #(-50); #(-50); #(-50)]; [fNaN; #(-50); #(-50); #(-50); #(-58); #(-50); #(-50); #(-50)]]
  [#5; #5] (demo_dist 2) #15 60 2 1.
Proof.
  constructor.
  - intros [|[|i]] Hi; simpl in *; try reflexivity; lia.
  - reflexivity.
  - intros m Hm. simpl in Hm. assert (E : m = repeat (repeat #0 2) 2) by (destruct Hm as [<-|[<-|[<-|[<-|[]]]]]; reflexivity). rewrite E.
    split; [reflexivity|]. intros [|[|i]] Hi; simpl in *; try reflexivity; lia.
  - lia.
  - change (60 * 1 / 60) with 1. simpl. lia.
  - simpl. lia.
  - lia.
  - intros [|[|i]] Hi; [vm_compute; reflexivity|vm_compute; reflexivity|simpl in Hi; lia].
Qed.

Theorem C34_interior_rule : forall T (pmin : list (list F64)) lens d radius thrP thrPL ml interval tp mh,
  call_ok T pmin lens d radius interval tp mh ->
  exists wet F dP, nearby_wetdry T pmin lens d radius thrP thrPL ml interval tp mh = Ok (wet, F) /\
  (forall i t, i < length pmin -> t < T -> is_drop pmin (tp * 60 / interval) (mh * 60 / interval) dP i t) /\
  forall i, i < length pmin ->
    let nb := neighbours d radius (length pmin) i in
    ml < length nb -> exists mP mPL,
    (forall t, t < T -> is_link_median dP dP nb ml t (mP t) /\
        is_link_median dP (fun j t => n_div (dP j t) (get n_nan lens j)) nb ml t (mPL t)) /\
    forall t, 1 <= t -> t + 2 < T -> n_isnan (mP t) = false -> n_isnan (mPL t) = false ->
      let rain := median_rule thrP thrPL mP mPL in
      let heavy := strong thrP thrPL mP mPL (dP i) in
      (rain t = true \/ heavy (t - 1) = true \/ heavy (t + 1) = true \/ heavy (t + 2) = true -> cell wet i t = n_ofZ 1) /\
      (rain t = false /\ heavy (t - 1) = false /\ heavy (t + 1) = false /\ heavy (t + 2) = false -> cell wet i t = n_ofZ 0).
Proof. exact (interior_rule F64sem). Qed.
Print Assumptions C34_interior_rule.

(** dry at step 1; steps 2 and 3 are before, step 5 is after the drop at step 4 *)
Example C34_case :
  match demo 0 with Ok (w, _) => f_same_list (slice 1 6 (get [] w 1)) [#0; #1; #1; #1; #1] | Err _ => false end = true.
Proof. vm_compute. reflexivity. Qed.

Theorem C35_ends_are_always_wet : forall T (pmin : list (list F64)) lens d radius thrP thrPL ml interval tp mh,
  call_ok T pmin lens d radius interval tp mh ->
  exists wet F dP, nearby_wetdry T pmin lens d radius thrP thrPL ml interval tp mh = Ok (wet, F) /\
  (forall i t, i < length pmin -> t < T -> is_drop pmin (tp * 60 / interval) (mh * 60 / interval) dP i t) /\
  forall i, i < length pmin ->
    let nb := neighbours d radius (length pmin) i in
    ml < length nb -> exists mP mPL,
    (forall t, t < T -> is_link_median dP dP nb ml t (mP t) /\
        is_link_median dP (fun j t => n_div (dP j t) (get n_nan lens j)) nb ml t (mPL t)) /\
    forall t, t < T -> t = 0 \/ T <= t + 2 -> n_isnan (mP t) = false -> n_isnan (mPL t) = false ->
      cell wet i t = n_ofZ 1.
Proof. exact (ends_wet F64sem). Qed.
Print Assumptions C35_ends_are_always_wet.

(** completely dry data *)
Example C35_case :
  match nearby_wetdry 8 [repeat #(-50) 8; repeat #(-50) 8] [#5; #5] (demo_dist 2) #15 thr_P thr_PL 1 60 2 1 with
  | Ok (w, _) => f_same_list (get [] w 0) [#1; #0; #0; #0; #0; #0; #1; #1] | Err _ => false end = true.
Proof. vm_compute. reflexivity. Qed.

Theorem C36_F_is_complete_window_sum_exact : forall T (pmin : list (list XR)) lens d radius thrP thrPL ml interval tp mh,
  call_ok T pmin lens d radius interval tp mh ->
  exists wet F dP, nearby_wetdry T pmin lens d radius thrP thrPL ml interval tp mh = Ok (wet, F) /\
  (forall i t, i < length pmin -> t < T -> is_drop pmin (tp * 60 / interval) (mh * 60 / interval) dP i t) /\
  forall i, i < length pmin ->
    let nb := neighbours d radius (length pmin) i in
    let dPL := fun j t => n_div (dP j t) (get n_nan lens j) in
    ml < length nb -> exists mPL,
    (forall t, t < T -> is_link_median dP dPL nb ml t (mPL t)) /\
    let excess := fun k => n_sub (dPL i k) (mPL k) in
    forall t, t < T ->
      (t + 1 < 4 * tp -> n_isnan (cell F i t) = true) /\
      ((exists k, k <= t /\ t < k + 4 * tp /\ n_isnan (excess k) = true) -> n_isnan (cell F i t) = true) /\
      (forall g : nat -> R, 4 * tp <= t + 1 -> (forall k, k <= t -> t < k + 4 * tp -> excess k = (XFin (g k) : XR)) ->
         cell F i t = (XFin (rsum (map g (seq (t + 1 - 4 * tp) (4 * tp))) * (INR interval / 60)) : XR)).
Proof. exact score_exact. Qed.
Print Assumptions C36_F_is_complete_window_sum_exact.

(** three links, only the first one drops (by 10 dB on 5 km): F = -2 at the last step *)
Example C36_case :
  match nearby_wetdry 8 [[#(-50); #(-50); #(-50); #(-50); #(-60); #(-50); #(-50); #(-50)]; repeat #(-50) 8; repeat #(-50) 8] [#5; #5; #5]
     (demo_dist 3) #15 thr_P thr_PL 2 60 2 1 with
  | Ok (_, f) => f_same_list (get [] f 0) (repeat fNaN 7 ++ [#(-2)]) | Err _ => false end = true.
Proof. vm_compute. reflexivity. Qed.
