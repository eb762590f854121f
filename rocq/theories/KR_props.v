(** * Properties C18-C25, C81, C82: the k-R relation *)
From Coq Require Import List ZArith Bool String Lia Reals Lra.
From Verif Require Import Base Num NumF64 NumList NpOps Libm Libm64 RealSpec Itu_table Spline_spec
  KR_model KR_spec KR_proofs KR_proofs2 KR_proofs3.
Import ListNotations.
Local Open Scope nat_scope.

(** In this file [cubic] is the interpolator of scipy and [L] the C math
    library; both are arbitrary unless a hypothesis says otherwise. *)

Theorem C18_only_two_combinations :
  forall (L : libm F64) (cubic : list F64 -> list F64 -> F64 -> F64)
    (A : list F64) (L_km : F64) f pol a b ap (R_min : F64),
  ~ (f <> None /\ pol <> None /\ a = None /\ b = None) ->
  ~ (f = None /\ pol = None /\ a <> None /\ b <> None) ->
  calc_R_from_A L cubic A L_km f pol a b ap R_min = Err ValueError.
Proof. exact calc_combos. Qed.
Print Assumptions C18_only_two_combinations.

Example C18_case : forall cubic,
  calc_R_from_A F64demo cubic [#3] #1 (Some [#20]) (Some (PolStr "H")) (Some (CScalar #1)) (Some (CScalar #1)) "ITU_2005" #0
  = Err ValueError /\
  calc_R_from_A F64demo cubic [#3] #1 (Some [#20]) None (Some (CScalar #1)) None "ITU_2005" #0 = Err ValueError /\
  calc_R_from_A F64demo cubic [#3] #1 None None None None "ITU_2005" #0 = Err ValueError.
Proof. intros; split; [|split]; reflexivity. Qed.

Theorem C19_rain_nan_exact :
  forall (L : libm F64) (cubic : list F64 -> list F64 -> F64 -> F64), pow_sane L ->
  forall (A : list F64) (L_km a b R_min : F64) ap,
  positive b -> positive (n_mul a L_km) -> finite (n_mul a L_km) ->
  exists R, calc_R_from_A L cubic A L_km None None (Some (CScalar a)) (Some (CScalar b)) ap R_min = Ok R /\
    List.length R = List.length A /\
    forall i, i < List.length A ->
      (missing (get n_nan R i) <-> missing (get n_nan A i)) /\
      (~ missing (get n_nan A i) -> nonneg (get n_nan R i)) /\
      (n_ltb (get n_nan A i) (n_ofZ 0) = true -> get n_nan R i = n_ofZ 0) /\
      (~ missing (get n_nan A i) -> get n_nan R i = n_ofZ 0 \/ n_ltb (get n_nan R i) R_min = false).
Proof. exact (calc_nan F64sem). Qed.
Print Assumptions C19_rain_nan_exact.

(** the assumption on pow is met by the correctly rounded library *)
Theorem C19_pow_assumptions_satisfiable : pow_sane F64cr /\ pow_mono F64cr.
Proof. exact (conj F64cr_pow_sane F64cr_pow_mono). Qed.
Print Assumptions C19_pow_assumptions_satisfiable.

(** a = 2, b = 1/2, L = 1: squares of A/2; R_min = 5 *)
Example C19_case : forall cubic,
  match calc_R_from_A F64demo cubic [#4; fNaN; #(-3); #8; #0] #1 None None (Some (CScalar #2))
          (Some (CScalar (f_div #1 #2))) "ITU_2005" #5 with
  | Ok R => f_same_list R [#0; fNaN; #0; #16; #0] | Err _ => false end = true.
Proof. intros; vm_compute; reflexivity. Qed.

Theorem C20_inverts_power_law_exact :
  forall (cubic : list XR -> list XR -> XR -> XR) (Rs : list R) a b l R_min ap,
  (0 < a -> 0 < b -> 0 < l -> (forall r, In r Rs -> 0 <= r) ->
   calc_R_from_A XRm cubic (ofR (map (attenuation a b l) Rs)) (XFin l : XR) None None
     (Some (CScalar (XFin a : XR))) (Some (CScalar (XFin b : XR))) ap (XFin R_min : XR)
   = Ok (ofR (map (fun r => if Rlt_dec r R_min then 0 else r) Rs)))%R.
Proof. exact calc_inverts. Qed.
Print Assumptions C20_inverts_power_law_exact.

Example C20_case : forall cubic,
  calc_R_from_A XRm cubic (ofR (map (attenuation (1/10) 1 2) [0; 1/20; 7]%R)) (XFin 2 : XR) None None
     (Some (CScalar (XFin (1/10) : XR))) (Some (CScalar (XFin 1 : XR))) "ITU_2005" (XFin (1/10) : XR)
  = Ok (ofR [0; 0; 7]%R).
Proof.
  intros. rewrite C20_inverts_power_law_exact; try lra.
  - simpl map. repeat (destruct (Rlt_dec _ _); try lra). reflexivity.
  - intros r [<-|[<-|[<-|[]]]]; lra.
Qed.

Theorem C21_rain_monotone :
  forall (L : libm F64) (cubic : list F64 -> list F64 -> F64 -> F64), pow_sane L -> pow_mono L ->
  forall (A A' : list F64) (L_km a b R_min : F64) ap R R',
  positive b -> positive (n_mul a L_km) -> finite (n_mul a L_km) ->
  calc_R_from_A L cubic A L_km None None (Some (CScalar a)) (Some (CScalar b)) ap R_min = Ok R ->
  calc_R_from_A L cubic A' L_km None None (Some (CScalar a)) (Some (CScalar b)) ap R_min = Ok R' ->
  forall i j, i < List.length A -> j < List.length A' ->
  n_leb (get n_nan A i) (get n_nan A' j) = true -> n_leb (get n_nan R i) (get n_nan R' j) = true.
Proof. exact (calc_mono F64sem). Qed.
Print Assumptions C21_rain_monotone.

Theorem C21_rain_monotone_exact :
  forall (cubic : list XR -> list XR -> XR -> XR) (A A' : list XR) (L_km a b R_min : XR) ap R R',
  positive b -> positive (n_mul a L_km) -> finite (n_mul a L_km) ->
  calc_R_from_A XRm cubic A L_km None None (Some (CScalar a)) (Some (CScalar b)) ap R_min = Ok R ->
  calc_R_from_A XRm cubic A' L_km None None (Some (CScalar a)) (Some (CScalar b)) ap R_min = Ok R' ->
  forall i j, i < List.length A -> j < List.length A' ->
  n_leb (get n_nan A i) (get n_nan A' j) = true -> n_leb (get n_nan R i) (get n_nan R' j) = true.
Proof. exact (fun cubic => calc_mono XRsem XRm cubic XRm_pow_sane XRm_pow_mono). Qed.
Print Assumptions C21_rain_monotone_exact.

Example C21_case : forall cubic,
  match calc_R_from_A F64demo cubic [#(-1); #1; #2; #3] #1 None None (Some (CScalar #1))
          (Some (CScalar (f_div #1 #2))) "ITU_2005" #2 with
  | Ok R => f_same_list R [#0; #0; #4; #9] | Err _ => false end = true.
Proof. intros; vm_compute; reflexivity. Qed.

Theorem C22_a_b_rejects :
  forall (cubic : list F64 -> list F64 -> F64 -> F64) (f : list F64) pol ap,
  (List.length f <> List.length (pols f pol) \/ f = [] \/
   (exists x, In x f /\ ~ in_range x) \/
   (exists s, In s (pols f pol) /\ ~ horizontal s /\ ~ vertical s) \/
   (ap <> "ITU_2003"%string /\ ap <> "ITU_2005"%string)) ->
  a_b cubic f pol ap = Err ValueError.
Proof. exact (a_b_reject F64sem). Qed.
Print Assumptions C22_a_b_rejects.

Theorem C23_a_b_elementwise :
  forall (cubic : list F64 -> list F64 -> F64 -> F64) (f : list F64) pol ap t,
  List.length f = List.length (pols f pol) -> f <> [] ->
  (forall x, In x f -> in_range x) ->
  (forall s, In s (pols f pol) -> horizontal s \/ vertical s) ->
  known_table ap = Some t ->
  exists a b, a_b cubic f pol ap = Ok (a, b) /\ List.length a = List.length f /\ List.length b = List.length f /\
    forall i, i < List.length f ->
      (horizontal (get ""%string (pols f pol) i) ->
         get n_nan a i = cubic (row t 0) (row t 1) (get n_nan f i) /\
         get n_nan b i = cubic (row t 0) (row t 3) (get n_nan f i)) /\
      (vertical (get ""%string (pols f pol) i) ->
         get n_nan a i = cubic (row t 0) (row t 2) (get n_nan f i) /\
         get n_nan b i = cubic (row t 0) (row t 4) (get n_nan f i)).
Proof. exact (a_b_accept F64sem). Qed.
Print Assumptions C23_a_b_elementwise.

(** a stand-in interpolator that returns the first ordinate *)
Example C22_case :
  a_b (fun _ ys _ => get (n_nan : F64) ys 0) [#20; #101] (PolStr "H") "ITU_2005" = Err ValueError /\
  a_b (fun _ ys _ => get (n_nan : F64) ys 0) [#20; #30] (PolArr ["H"; "x"]%string) "ITU_2005" = Err ValueError /\
  a_b (fun _ ys _ => get (n_nan : F64) ys 0) [#20; #30] (PolArr ["H"]%string) "ITU_2005" = Err ValueError /\
  a_b (fun _ ys _ => get (n_nan : F64) ys 0) [#20; #30] (PolStr "V") "ITU" = Err ValueError.
Proof. split; [|split; [|split]]; vm_compute; reflexivity. Qed.
Example C23_case :
  match a_b (fun _ ys _ => get (n_nan : F64) ys 0) [#20; #100; #1] (PolArr ["Vertical"; "h"; "V"]%string) "ITU_2003" with
  | Ok (a, b) => f_same_list a [n_lit 352 7; n_lit 387 7; n_lit 352 7] && f_same_list b [n_lit 880 3; n_lit 912 3; n_lit 880 3]
  | Err _ => false end = true.
Proof. vm_compute; reflexivity. Qed.

Theorem C24_itu_coefficients_positive :
  forall (cubic : list XR -> list XR -> XR -> XR), exact_cubic cubic ->
  forall (f : list R) pol ap t,
  List.length f = List.length (pols (ofR f) pol) -> f <> [] ->
  (forall x, In x f -> (1 <= x <= 100)%R) ->
  (forall s, In s (pols (ofR f) pol) -> horizontal s \/ vertical s) ->
  known_table ap = Some t ->
  exists a b : list R, a_b cubic (ofR f) pol ap = Ok (ofR a, ofR b) /\
    List.length a = List.length f /\ List.length b = List.length f /\
    forall i, i < List.length f ->
      (0 < rget a i)%R /\ (0 < rget b i)%R /\
      (forall j, j < List.length (get [] t 0) -> rget f i = entry t 0 j ->
         (horizontal (get ""%string (pols (ofR f) pol) i) -> rget a i = entry t 1 j /\ rget b i = entry t 3 j) /\
         (vertical (get ""%string (pols (ofR f) pol) i) -> rget a i = entry t 2 j /\ rget b i = entry t 4 j)).
Proof. exact a_b_exact. Qed.
Print Assumptions C24_itu_coefficients_positive.

(** the not-a-knot spline exists *)
Theorem C24_exact_interpolator_exists : exists cubic, exact_cubic cubic.
Proof. exact (ex_intro _ exact_spline exact_spline_ok). Qed.
Print Assumptions C24_exact_interpolator_exists.

Theorem C24_retrieval_from_frequency_is_total :
  forall (cubic : list XR -> list XR -> XR -> XR), exact_cubic cubic ->
  forall (A : list XR) l f pol ap (R_min : XR), (0 < l)%R -> (1 <= f <= 100)%R ->
  horizontal pol \/ vertical pol -> known_table ap <> None ->
  exists R, calc_R_from_A XRm cubic A (XFin l : XR) (Some [XFin f : XR]) (Some (PolStr pol)) None None ap R_min = Ok R /\
    List.length R = List.length A /\
    forall i, i < List.length A ->
      (missing (get n_nan R i) <-> missing (get n_nan A i)) /\
      (~ missing (get n_nan A i) -> nonneg (get n_nan R i)).
Proof. exact calc_freq_exact. Qed.
Print Assumptions C24_retrieval_from_frequency_is_total.

(** 20 GHz, horizontal, 2005 table: a = 0.09164 and b = 1.0568 *)
Example C24_case :
  exists a b : list R,
    a_b exact_spline (ofR [20; 33]%R) (PolStr "H") "ITU_2005" = Ok (ofR a, ofR b) /\
    rget a 0 = (9164 / 100000)%R /\ rget b 0 = (10568 / 10000)%R /\ (0 < rget a 1)%R.
Proof.
  destruct (C24_itu_coefficients_positive exact_spline exact_spline_ok [20; 33]%R (PolStr "H") "ITU_2005" ITU_table_2005)
    as (a & b & E & La & Lb & G); auto.
  - discriminate.
  - intros x [<-|[<-|[]]]; lra.
  - intros s Hs. simpl in Hs. left. destruct Hs as [<-|[<-|[]]]; unfold horizontal; simpl; auto.
  - exists a, b. split; [exact E|]. destruct (G 0 ltac:(simpl; lia)) as (_ & _ & H). destruct (G 1 ltac:(simpl; lia)) as (P & _).
    destruct (H 24 ltac:(vm_compute; lia)) as [HH _].
    { unfold entry, dec, rget, get. simpl. lra. }
    destruct HH as [-> ->]; [unfold horizontal; simpl; auto|].
    unfold entry, dec, get. simpl. repeat split; auto; lra.
Qed.

Theorem C25_min_max_retrieval_scaled :
  forall (cubic : list XR -> list XR -> XR -> XR) (A : list XR) a b l k pol ap,
  (0 < a)%R -> (0 < b)%R -> (0 < l)%R -> (1 <= k)%R ->
  (forall x : XR, In x A -> n_isinf x = false) ->
  exists Rc Rm,
    calc_R_from_A XRm cubic A (XFin l : XR) None None (Some (CScalar (XFin a : XR))) (Some (CScalar (XFin b : XR)))
      ap (XFin 0 : XR) = Ok Rc /\
    calc_R_from_A_min_max XRm cubic A (XFin l : XR) None (Some (CScalar (XFin a : XR))) (Some (CScalar (XFin b : XR)))
      pol (XFin 0 : XR) (XFin k : XR) = Ok Rm /\
    List.length Rm = List.length A /\
    forall i, i < List.length A ->
      xat Rm i = xdiv (xat Rc i) (XFin (ln k + 57721566 / 100000000)) /\
      (xat Rm i = XNaN <-> xat A i = XNaN) /\
      (xltb (xat A i) (XFin 0) = true -> xat Rm i = XFin 0).
Proof. exact min_max_scaled. Qed.
Print Assumptions C25_min_max_retrieval_scaled.

(** the hypotheses are met by a series with a gap *)
Example C25_case : forall cubic, exists Rm,
  calc_R_from_A_min_max XRm cubic [XFin 3; XNaN; XFin (-1)] (XFin 2 : XR) None (Some (CScalar (XFin 1 : XR)))
    (Some (CScalar (XFin 1 : XR))) (PolStr "H") (XFin 0 : XR) (XFin 90 : XR) = Ok Rm /\
  xat Rm 1 = XNaN /\ xat Rm 2 = XFin 0.
Proof.
  intros cubic. destruct (C25_min_max_retrieval_scaled cubic [XFin 3; XNaN; XFin (-1)] 1 1 2 90 (PolStr "H") "ITU_2005")
    as (Rc & Rm & _ & E & _ & G); try lra.
  - intros x [<-|[<-|[<-|[]]]]; reflexivity.
  - exists Rm. split; [exact E|]. split.
    + apply (G 1); simpl; auto.
    + apply (G 2); simpl; auto. unfold xat, get. simpl. rewrite Raux.Rlt_bool_true; [reflexivity|lra].
Qed.

(** binary64, any R_min and any number of measurements: the same retrieval as
    calc_R_from_A with the calibrated coefficient a (ln k + 0.57721566)^b *)
Theorem C25_calibrated_coefficient :
  forall (L : libm F64) cubic (A : list F64) l a b pol ap R_min k,
  let g := n_add (m_log L k) (n_lit 57721566 8) in
  calc_R_from_A_min_max L cubic A l None (Some (CScalar a)) (Some (CScalar b)) pol R_min k =
  calc_R_from_A L cubic A l None None (Some (CArr [n_mul a (m_pow L g b)])) (Some (CScalar b)) ap R_min.
Proof. exact min_max_calibrated. Qed.
Print Assumptions C25_calibrated_coefficient.

(** a missing coefficient raises; a frequency replaces given coefficients *)
Theorem C25_arguments :
  forall (L : libm F64) cubic (A : list F64) l a b pol R_min k,
  (a = None \/ b = None -> calc_R_from_A_min_max L cubic A l None a b pol R_min k = Err TypeError) /\
  forall f, calc_R_from_A_min_max L cubic A l (Some f) a b pol R_min k = calc_R_from_A_min_max L cubic A l (Some f) None None pol R_min k.
Proof. exact min_max_arguments. Qed.
Print Assumptions C25_arguments.

Example C25_case_arguments :
  let none := fun _ _ x => x in
  match calc_R_from_A_min_max F64demo none [#3] #2 None (Some (CScalar #1)) None (PolStr "H") #0 #90,
        calc_R_from_A_min_max F64demo none [#50] #2 None (Some (CScalar #1)) (Some (CScalar #1)) (PolStr "H") #10 #1,
        calc_R_from_A_min_max F64demo none [#50; #20] #2 None (Some (CScalar #1)) (Some (CScalar #1)) (PolStr "H") #10 #1 with
  | Err TypeError, Ok [r], Ok [r'; z] => f_same r (f_div #50 (n_mul (n_add #1 (n_lit 57721566 8)) #2)) && f_same r r' && f_same z #0 | _, _, _ => false end = true.
Proof. vm_compute. reflexivity. Qed.

(** The docstring says a str [pol] is expanded to the shape of [f_GHz]. *)
Theorem C81_str_pol_with_several_frequencies_raises :
  forall (L : libm F64) (cubic : list F64 -> list F64 -> F64 -> F64) (A : list F64) (L_km : F64) f s ap (R_min : F64),
  1 < List.length f ->
  calc_R_from_A L cubic A L_km (Some f) (Some (PolStr s)) None None ap R_min = Err ValueError.
Proof. exact calc_str_pol_multi. Qed.
Print Assumptions C81_str_pol_with_several_frequencies_raises.

Theorem C81_documented_expansion_refuted :
  exists (f : list F64) s,
    (exists ab, a_b (fun _ ys _ => get n_nan ys 0) f (PolStr s) "ITU_2005" = Ok ab) /\
    (forall L A L_km R_min,
      calc_R_from_A L (fun _ ys _ => get (n_nan : F64) ys 0) A L_km (Some f) (Some (PolStr s)) None None "ITU_2005" R_min
      = Err ValueError).
Proof. exact str_pol_refuted. Qed.
Print Assumptions C81_documented_expansion_refuted.

Theorem C82_frequency_array_all_or_nothing :
  forall (L : libm F64) (cubic : list F64 -> list F64 -> F64 -> F64) (A : list F64) (L_km : F64) f pol ap (R_min : F64),
  1 < List.length f -> List.length A = List.length f ->
  (exists i, i < List.length A /\ (missing (get n_nan A i) \/ n_ltb (get n_nan A i) (n_ofZ 0) = true)) ->
  calc_R_from_A L cubic A L_km (Some f) (Some (PolArr pol)) None None ap R_min = Err ValueError.
Proof. exact calc_multi_raises64. Qed.
Print Assumptions C82_frequency_array_all_or_nothing.

Theorem C82_frequency_array_elementwise :
  forall (L : libm F64) (cubic : list F64 -> list F64 -> F64 -> F64) (A : list F64) (L_km : F64) f pol ap (R_min : F64) a b,
  List.length A = List.length f -> a_b cubic f (PolArr pol) ap = Ok (a, b) ->
  (forall i, i < List.length A -> nonneg (get n_nan A i)) ->
  exists R, calc_R_from_A L cubic A L_km (Some f) (Some (PolArr pol)) None None ap R_min = Ok R /\
    List.length R = List.length A /\
    forall i, i < List.length A ->
      let r := m_pow L (n_div (get n_nan A i) (n_mul (get n_nan a i) L_km)) (n_div (n_ofZ 1) (get n_nan b i)) in
      get n_nan R i = if n_ltb r R_min then n_ofZ 0 else r.
Proof. exact calc_multi_ok64. Qed.
Print Assumptions C82_frequency_array_elementwise.

(** an interpolator whose value is 1 everywhere: both exponents are 1 *)
Example C82_case :
  calc_R_from_A F64demo (fun _ _ _ => #1) [#3; fNaN] #1 (Some [#20; #30]) (Some (PolArr ["H"; "V"]%string)) None None
    "ITU_2005" #0 = Err ValueError /\
  match calc_R_from_A F64demo (fun _ _ _ => #1) [#3; #6] #3 (Some [#20; #30]) (Some (PolArr ["H"; "V"]%string)) None None
    "ITU_2005" #2 with Ok R => f_same_list R [#0; #2] | Err _ => false end = true.
Proof. split; vm_compute; reflexivity. Qed.
