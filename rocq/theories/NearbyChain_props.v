(** * Property C116: the nearby-link chain from levels to rain rates *)
From Coq Require Import List ZArith Bool String Lia.
From Verif Require Import Base Num NumF64 NumList Libm Libm64 KR_model KR_spec NearbyRain_spec NearbyWetdry_model NearbyWetdry_spec NearbyWetdry_props
  NearbyChain_model NearbyChain_spec NearbyChain_proofs.
Import ListNotations.
Local Open Scope nat_scope.
Local Notation length := List.length.

(** Rain rates are missing or not negative; zero or missing in steps that are
    not wet or have no minimum level; missing if none of the last
    [n_average_dry] steps is dry, hence in the first step and in links with too
    few neighbours. *)
Theorem C116_rain_rates : forall (L : libm F64) cubic p nw T (pmin pmax : list (list F64)),
  pow_sane L -> pow_nan L -> pow_zero L ->
  record_ok p nw T pmin pmax -> links_ok cubic nw (length pmin) -> par_ok p ->
  exists wet F R,
    nearby_wetdry T pmin (nw_len nw) (nw_dist nw) (np_radius p) (np_thr_P p) (np_thr_PL p) (np_min_links p) (np_interval p) (np_timeperiod p) (np_min_hours p) = Ok (wet, F) /\
    nearby_chain L cubic p nw T pmin pmax = Ok R /\ length R = length pmin /\
    forall i, i < length pmin -> length (get [] R i) = T /\ forall t, t < T ->
      (missing (cell R i t) \/ nonneg (cell R i t)) /\
      (n_eqb (cell wet i t) (n_ofZ 1) = false \/ missing (cell pmin i t) -> missing (cell R i t) \/ n_eqb (cell R i t) (n_ofZ 0) = true) /\
      ((forall k, k <= t -> t < k + np_average_dry p -> n_eqb (cell wet i k) (n_ofZ 0) = false) -> missing (cell R i t)) /\
      (t = 0 \/ length (neighbours (nw_dist nw) (np_radius p) (length pmin) i) <= np_min_links p -> missing (cell R i t)).
Proof. intros L cubic p nw T pmin pmax H1 H2 H3. exact (chain_results F64sem L cubic H1 H2 H3 p nw T pmin pmax). Qed.
Print Assumptions C116_rain_rates.

(** the laws asked of the power function hold for the correctly rounded one
    ([pow_sane] and [pow_zero]: C19 and C31) *)
Theorem C116_pow_law_satisfiable : pow_nan F64cr.
Proof. exact F64cr_pow_nan. Qed.
Print Assumptions C116_pow_law_satisfiable.

(** Rain rates are final once two more steps are known: two records that agree
    in their first [s] steps give the same rain rates up to step [s - 3]. *)
Theorem C116_final_after_two_steps : forall (L : libm F64) cubic p nw s T T' (pmin pmax pmin' pmax' : list (list F64)) R R',
  record_ok p nw T pmin pmax -> record_ok p nw T' pmin' pmax' -> s <= T -> s <= T' ->
  same_start s pmin pmin' -> same_start s pmax pmax' ->
  nearby_chain L cubic p nw T pmin pmax = Ok R -> nearby_chain L cubic p nw T' pmin' pmax' = Ok R' ->
  forall i t, i < length pmin -> t + 2 < s -> cell R i t = cell R' i t.
Proof. exact (final_after_two F64sem). Qed.
Print Assumptions C116_final_after_two_steps.

(** three links of 5 km in one place; [a = b = 1], 2 dB of wet antenna *)
Definition demo_par (ml : nat) : nearby_par F64 := mk_nearby_par #15 thr_P thr_PL ml 60 2 1 4 1 #2 f_half (Some #(-32)).
Definition demo_net : network F64 := mk_network [#5; #5; #5] (repeat #20000000000 3) (repeat "V"%string 3) (demo_dist 3).
Definition unit_cubic (_ _ : list F64) (_ : F64) : F64 := #1.
Definition demo_chain (T : nat) (l : list (list F64)) := nearby_chain F64demo unit_cubic (demo_par 2) demo_net T l l.

(** all links drop at step 4 by 12, 7 and 4 dB *)
Definition demo_event : list (list F64) :=
  [[#(-50); #(-50); #(-50); #(-50); #(-62); #(-50); #(-50); #(-50)]; [#(-40); #(-40); #(-40); #(-40); #(-47); #(-40); #(-40); #(-40)];
   [#(-60); #(-60); #(-60); #(-60); #(-64); #(-60); fNaN; #(-60)]].
Example C116_case :
  match demo_chain 8 demo_event with
  | Ok R => f_same_list (get [] R 0) [fNaN; #0; #0; #0; #2; fNaN; fNaN; fNaN] && f_same_list (get [] R 1) [fNaN; #0; #0; #0; #1; fNaN; fNaN; fNaN]
  | Err _ => false end = true.
Proof. vm_compute. reflexivity. Qed.

(** with [min_links] = 3 nothing is classified *)
Example C116_case_few_links :
  match nearby_chain F64demo unit_cubic (demo_par 3) demo_net 8 demo_event demo_event with
  | Ok R => f_same_list (get [] R 0) (repeat fNaN 8) | Err _ => false end = true.
Proof. vm_compute. reflexivity. Qed.

Lemma demo_ok ml T l : 8 <= T -> length l = 3 -> (forall i, i < 3 -> length (get [] l i) = T) -> record_ok (demo_par ml) demo_net T l l.
Proof.
  intros HT L3 HL. split; [|split; [reflexivity|split; [rewrite L3; exact HL|simpl; lia]]]. constructor.
  - rewrite L3. exact HL.
  - rewrite L3. reflexivity.
  - rewrite L3. intros m Hm. simpl in Hm. assert (E : m = repeat (repeat #0 3) 3) by (destruct Hm as [<-|[<-|[<-|[<-|[]]]]]; reflexivity). rewrite E.
    split; [reflexivity|]. intros [|[|[|i]]] Hi; simpl in *; try reflexivity; lia.
  - discriminate.
  - change (1 <= 1 * 60 / 60 <= 2 * 60 / 60). change (2 * 60 / 60) with 2. change (1 * 60 / 60) with 1. lia.
  - change (2 * 60 / 60 <= T). change (2 * 60 / 60) with 2. lia.
  - change (2 * 4 <= T). lia.
  - rewrite L3. intros [|[|[|i]]] Hi; [vm_compute; reflexivity|vm_compute; reflexivity|vm_compute; reflexivity|lia].
Qed.
Example C116_case_hypotheses : record_ok (demo_par 2) demo_net 8 demo_event demo_event /\ links_ok unit_cubic demo_net (length demo_event) /\ par_ok (demo_par 2).
Proof.
  split; [|split].
  - apply demo_ok; [lia|reflexivity|]. intros [|[|[|i]]] Hi; try reflexivity; lia.
  - intros i Hi.
    assert (E : get n_nan (nw_freq demo_net) i = #20000000000 /\ get EmptyString (nw_pol demo_net) i = "V"%string /\ get n_nan (nw_len demo_net) i = #5).
    { destruct i as [|[|[|i]]]; [split; [reflexivity|split; reflexivity]..|simpl in Hi; lia]. }
    destruct E as (-> & -> & ->).
    destruct (ok_check (a_b unit_cubic [n_div #20000000000 (n_ofZ (10 ^ 9))] (PolArr ["V"%string]) "ITU_2005")
      (fun ab : list F64 * list F64 => match ab with
        | ([a], [b]) => n_ltb (n_ofZ 0) (n_mul a #5) && (negb (n_isnan (n_mul a #5)) && negb (n_isinf (n_mul a #5))) && (n_ltb (n_ofZ 0) b && n_ltb (n_ofZ 0) (n_div (n_ofZ 1) b))
        | _ => false end)) as ([[|a [|]] [|b [|]]] & E & C); [vm_compute; reflexivity|try discriminate C..].
    exists a, b. apply andb_prop in C as [C C2]. apply andb_prop in C as [C C1]. apply andb_prop in C1 as [C1 C1']. apply andb_prop in C2 as [C2 C2'].
    apply negb_true_iff in C1, C1'. split; [exact E|]. split; [exact C|]. split; [split; [exact C1|exact C1']|]. split; [exact C2|exact C2'].
  - assert (E : n_leb (n_ofZ 0) #2 && n_leb (n_ofZ 0) f_half && n_leb f_half (n_ofZ 1) = true) by (vm_compute; reflexivity).
    apply andb_prop in E as [E E3]. apply andb_prop in E as [E1 E2]. split; [exact E1|]. split; [exact E2|exact E3].
Qed.

(** The last two steps are preliminary: 3 dB at the last step of one link are
    rain, because ends of the record are always wet (C35), and no longer when
    two more steps are known. *)
Definition short_record : list (list F64) := (repeat #(-50) 7 ++ [#(-53)]) :: repeat (repeat #(-50) 8) 2.
Definition long_record : list (list F64) := (repeat #(-50) 7 ++ [#(-53); #(-50); #(-50)]) :: repeat (repeat #(-50) 10) 2.

Theorem C116_last_two_steps_refuted : exists R R',
  record_ok (demo_par 2) demo_net 8 short_record short_record /\ record_ok (demo_par 2) demo_net 10 long_record long_record /\
  same_start 8 short_record long_record /\
  demo_chain 8 short_record = Ok R /\ demo_chain 10 long_record = Ok R' /\
  positive (cell R 0 7) /\ n_eqb (cell R' 0 7) (n_ofZ 0) = true.
Proof.
  assert (O1 : record_ok (demo_par 2) demo_net 8 short_record short_record) by (apply demo_ok; [lia|reflexivity|]; intros [|[|[|i]]] Hi; try reflexivity; lia).
  assert (O2 : record_ok (demo_par 2) demo_net 10 long_record long_record) by (apply demo_ok; [lia|reflexivity|]; intros [|[|[|i]]] Hi; try reflexivity; lia).
  destruct (ok_check (demo_chain 8 short_record) (fun R : list (list F64) => n_ltb (n_ofZ 0) (cell R 0 7))) as (R & E & C); [vm_compute; reflexivity|].
  destruct (ok_check (demo_chain 10 long_record) (fun R : list (list F64) => n_eqb (cell R 0 7) (n_ofZ 0))) as (R' & E' & C'); [vm_compute; reflexivity|].
  exists R, R'. split; [exact O1|]. split; [exact O2|]. split.
  { split; [reflexivity|]. intros i t Hi Ht. change (i < 3) in Hi. destruct i as [|[|[|i]]]; [..|lia]; destruct t as [|[|[|[|[|[|[|[|t]]]]]]]]; try reflexivity; lia. }
  split; [exact E|]. split; [exact E'|]. split; [exact C|exact C'].
Qed.
Print Assumptions C116_last_two_steps_refuted.
