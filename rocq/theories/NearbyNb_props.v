(** * Property C140: the nearby-link notebook from raw levels to rain rates *)
From Coq Require Import List ZArith Bool Reals String Lia.
From Verif Require Import Base Num NumF64 NumList Libm Libm64 KR_model KR_spec NearbyRain_spec NearbyRain_model NearbyWetdry_model NearbyWetdry_spec NearbyWetdry_props
  Workflow_model Workflow_spec NearbyChain_model NearbyChain_spec NearbyChain_props NearbyNb_model NearbyNb_spec NearbyNb_proofs NearbyNb_proofs2.
Import ListNotations.
Local Open Scope nat_scope.
Local Notation length := List.length.

(** There is exactly one way to lay out the bins, and every sample lies in
    exactly one of them. *)
Theorem C140_bins_exist : forall (w : Z) (times : list Z), (0 < w)%Z -> ascending times -> times <> [] ->
  exists a N, bins w times a N /\ (forall b M, bins w times b M -> b = a /\ M = N) /\
    forall i, i < length times -> exists n, n < N /\ in_bin w times a n i /\ forall m, in_bin w times a m i -> m = n.
Proof.
  intros w times HW HA HN. exists (bin_label w times 0), (bin_count w times). split; [apply bins_here; auto|]. split.
  - intros b M B. apply (bins_unique w times HW HN b M); auto. apply bins_here; auto.
  - apply one_bin; auto.
Qed.
Print Assumptions C140_bins_exist.

Lemma bins_are w times a N : (0 < w)%Z -> ascending times -> times <> [] -> bins w times a N -> a = bin_label w times 0 /\ N = bin_count w times.
Proof. intros HW HA HN B. apply (bins_unique w times HW HN); auto. apply bins_here; auto. Qed.

(** The level is the difference where neither sample is a fill value; it is
    missing unless both are received and sent, or lie in gaps of at most [g]. *)
Theorem C140_levels : forall (lo hi : F64) (g : Z) (times : list Z) (rsl tsl : list F64),
  (forall t, In t times -> whole_second t) -> whole_second g -> length rsl = length times -> length tsl = length times ->
  length (rstl lo hi (n_ofZ g) times rsl tsl) = length times /\
  forall t, t < length times ->
    (received lo rsl t -> sent hi tsl t -> get n_nan (rstl lo hi (n_ofZ g) times rsl tsl) t = n_sub (get n_nan rsl t) (get n_nan tsl t)) /\
    (~ missing (get n_nan (rstl lo hi (n_ofZ g) times rsl tsl) t) ->
       reached (received lo rsl) times g t /\ reached (sent hi tsl) times g t).
Proof.
  intros lo hi g times rsl tsl HS HG LR LT. split; [apply rstl_length; auto|]. intros t Ht. split.
  - intros A B. apply (rstl_measured F64sem); auto.
  - intros N. apply (rstl_reached F64sem _ _ (n_ofZ g)); auto. intros i j Hi Hj. apply short_times; auto.
Qed.
Print Assumptions C140_levels.

(** In exact arithmetic a gap of the received level is bridged by a straight
    line, from which the transmitted level at that time is subtracted. *)
Theorem C140_filled_exact : forall (lo hi mg : XR) (times : list Z) (rsl tsl : list XR) i t j a b s,
  length rsl = length times -> length tsl = length times -> ascending times ->
  in_gap (received lo rsl) (length times) i t j -> short (map n_ofZ times) mg i j ->
  get n_nan rsl i = XFin a -> get n_nan rsl j = XFin b -> sent hi tsl t -> get n_nan tsl t = XFin s ->
  get n_nan (rstl lo hi mg times rsl tsl) t =
    XFin (a + (b - a) * (IZR (get 0%Z times t - get 0%Z times i) / IZR (get 0%Z times j - get 0%Z times i)) - s).
Proof. exact level_line. Qed.
Print Assumptions C140_filled_exact.

(** Minimum and maximum of a bin are missing if none of its samples has a
    level; otherwise they are attained and enclose all levels of the bin. *)
Theorem C140_extremes : forall (p : nb_par F64) (times : list Z) (rsl tsl : list F64) a N,
  (0 < nb_width p)%Z -> ascending times -> times <> [] -> length rsl = length times -> length tsl = length times ->
  bins (nb_width p) times a N ->
  length (link_min p times rsl tsl) = N /\ length (link_max p times rsl tsl) = N /\
  forall n, n < N -> extremes (nb_width p) times a (rstl (nb_lo p) (nb_hi p) (nb_gap p) times rsl tsl) n
    (get n_nan (link_min p times rsl tsl) n) (get n_nan (link_max p times rsl tsl) n).
Proof.
  intros p times rsl tsl a N HW HA HN LR LT B. destruct (bins_are _ _ _ _ HW HA HN B) as [-> ->].
  split; [apply resample_length|]. split; [apply resample_length|]. intros n Hn. apply (resample_extremes F64sem); auto. apply rstl_length; auto.
Qed.
Print Assumptions C140_extremes.

(** The corrected levels are in order, so the two rain rates mixed by [alpha]
    are in order as well (C30). *)
Theorem C140_corrected_in_order : forall (p : nb_par F64) (times : list Z) (rsl tsl wet pref : list F64) a N,
  (0 < nb_width p)%Z -> ascending times -> times <> [] -> length rsl = length times -> length tsl = length times ->
  bins (nb_width p) times a N -> length wet = N -> length pref = N ->
  exists cmin cmax, nearby_correct_received_signals (link_min p times rsl tsl) (link_max p times rsl tsl) wet pref = (cmin, cmax) /\
    forall n, n < N -> ~ missing (get n_nan pref n) ->
      n_leb (get n_nan cmin n) (get n_nan cmax n) = true /\ n_leb (get n_nan cmax n) (get n_nan pref n) = true.
Proof.
  intros p times rsl tsl wet pref a N HW HA HN LR LT B LW LP. destruct (bins_are _ _ _ _ HW HA HN B) as [-> ->].
  apply (corrected_order F64sem); auto.
Qed.
Print Assumptions C140_corrected_in_order.

(** every row has the length of the time axis *)
Definition shaped (times : list Z) (rsl tsl : list (list F64)) : Prop := length tsl = length rsl /\
  forall i, i < length rsl -> length (get [] rsl i) = length times /\ length (get [] tsl i) = length times.
Definition pmin_of (p : nb_par F64) times rsl tsl := map2 (link_min p times) rsl tsl.
Definition pmax_of (p : nb_par F64) times rsl tsl := map2 (link_max p times) rsl tsl.

(** The notebook gives a rain rate or a missing value for every link and bin,
    and no rain for bins without usable samples. *)
Theorem C140_rain_rates : forall (L : libm F64) cubic (p : nb_par F64) q nw (g : Z) times (rsl tsl : list (list F64)) a N,
  pow_sane L -> pow_nan L -> pow_zero L ->
  (0 < nb_width p)%Z -> ascending times -> times <> [] -> (forall t, In t times -> whole_second t) -> whole_second g -> nb_gap p = n_ofZ g ->
  shaped times rsl tsl -> bins (nb_width p) times a N ->
  record_ok q nw N (pmin_of p times rsl tsl) (pmax_of p times rsl tsl) -> links_ok cubic nw (length rsl) -> par_ok q ->
  exists R, nearby_notebook L cubic p q nw times rsl tsl = Ok R /\ length R = length rsl /\
    forall i, i < length rsl -> length (get [] R i) = N /\ forall n, n < N ->
      (missing (cell R i n) \/ nonneg (cell R i n)) /\
      ((forall t, in_bin (nb_width p) times a n t ->
          ~ (reached (received (nb_lo p) (get [] rsl i)) times g t /\ reached (sent (nb_hi p) (get [] tsl i)) times g t)) ->
       missing (cell R i n) \/ n_eqb (cell R i n) (n_ofZ 0) = true).
Proof.
  intros L cubic p q nw g times rsl tsl a N P1 P2 P3 HW HA HN HS HG EG [LN SHP] B C LK PO. destruct (bins_are _ _ _ _ HW HA HN B) as [-> ->].
  apply (notebook_rain F64sem); auto. intros i j Hi Hj. rewrite EG. apply short_times; auto.
Qed.
Print Assumptions C140_rain_rates.

(** The rain rate of a bin is final once the samples of two more bins and of
    the longest filled gap after them are known. *)
Theorem C140_final : forall (L : libm F64) cubic (p : nb_par F64) q nw (g E : Z) m times times' (rsl rsl' tsl tsl' : list (list F64)) a N a' N' R R',
  (0 < nb_width p)%Z -> ascending times -> ascending times' -> (forall t, In t times \/ In t times' -> whole_second t) ->
  whole_second g -> nb_gap p = n_ofZ g -> shaped times rsl tsl -> shaped times' rsl' tsl' ->
  same_until E m times times' rsl rsl' tsl tsl' ->
  bins (nb_width p) times a N -> bins (nb_width p) times' a' N' ->
  record_ok q nw N (pmin_of p times rsl tsl) (pmax_of p times rsl tsl) -> record_ok q nw N' (pmin_of p times' rsl' tsl') (pmax_of p times' rsl' tsl') ->
  nearby_notebook L cubic p q nw times rsl tsl = Ok R -> nearby_notebook L cubic p q nw times' rsl' tsl' = Ok R' ->
  forall i k, i < length rsl -> k + 3 <= N -> k + 3 <= N' -> (a + nb_width p * (Z.of_nat k + 3) + g <= E)%Z -> cell R i k = cell R' i k.
Proof.
  intros L cubic p q nw g E m times times' rsl rsl' tsl tsl' a N a' N' R R' HW HA HA' HS HG EG [LN SH1] [LN' SH2] SU B B'.
  assert (NE : times <> []) by (destruct SU as ((? & ?) & _); intros ->; simpl in *; lia).
  assert (NE' : times' <> []) by (destruct SU as ((? & ?) & ? & _); intros ->; simpl in *; lia).
  destruct (bins_are _ _ _ _ HW HA NE B) as [-> ->]. destruct (bins_are _ _ _ _ HW HA' NE' B') as [-> ->].
  apply (notebook_final F64sem L cubic p q nw g E m times times' rsl rsl' tsl tsl' R R'); auto.
  - apply HG.
  - intros i j Hi Hj. rewrite EG. apply short_times; auto.
  - intros i j Hi Hj. rewrite EG. apply short_times; auto.
Qed.
Print Assumptions C140_final.

(** five minutes, the notebook's fill values (rounded) and bins *)
Definition minute : Z := (60 * 10 ^ 9)%Z.
Definition demo_nb : nb_par F64 := mk_nb_par #(-99) #255 (n_ofZ (5 * minute)) (15 * minute).
Definition at_minutes (l : list Z) : list Z := map (fun k => (18000 * one_day + k * minute)%Z) l.

(** minutes 10 to 55 of a day: fill value at 12 (filled), a gap from 20 to 28
    (too long), nothing in the third quarter *)
Definition few_times := at_minutes [10; 12; 14; 16; 20; 24; 28; 50; 55]%Z.
Definition few_rsl : list F64 := [#(-40); #(-100); #(-44); #(-41); #(-42); #(-100); #(-43); #(-60); fNaN].
Definition few_tsl : list F64 := [#10; #11; #10; #255; #10; #10; #10; #10; #10].
Example C140_case_levels :
  f_same_list (rstl #(-99) #255 (n_ofZ (5 * minute)) few_times few_rsl few_tsl) [#(-50); #(-53); #(-54); fNaN; #(-52); fNaN; #(-53); #(-70); fNaN] &&
  f_same_list (link_min demo_nb few_times few_rsl few_tsl) [#(-54); #(-53); fNaN; #(-70)] &&
  f_same_list (link_max demo_nb few_times few_rsl few_tsl) [#(-50); #(-52); fNaN; #(-70)] = true.
Proof. vm_compute. reflexivity. Qed.

(** the event of C116, two samples per bin, some of them fill values *)
Definition event_times := at_minutes [0; 7; 15; 22; 30; 37; 45; 52; 60; 67; 75; 82; 90; 97; 105; 112]%Z.
Definition event_rsl : list (list F64) := map (flat_map (fun v => if n_isnan v then [#(-100); fNaN] else [n_add v #10; #(-100)])) demo_event.
Definition event_tsl : list (list F64) := repeat (repeat #10 16) 3.
Example C140_case :
  match nearby_notebook F64demo unit_cubic demo_nb (demo_par 2) demo_net event_times event_rsl event_tsl with
  | Ok R => f_same_list (get [] R 0) [fNaN; #0; #0; #0; #2; fNaN; fNaN; fNaN] && f_same_list (get [] R 1) [fNaN; #0; #0; #0; #1; fNaN; fNaN; fNaN]
  | Err _ => false end = true.
Proof. vm_compute. reflexivity. Qed.

Example C140_case_hypotheses : ascending event_times /\ (forall t, In t event_times -> whole_second t) /\ whole_second (5 * minute) /\
  bins (nb_width demo_nb) event_times (18000 * one_day) 8 /\ shaped event_times event_rsl event_tsl /\
  record_ok (demo_par 2) demo_net 8 (pmin_of demo_nb event_times event_rsl event_tsl) (pmax_of demo_nb event_times event_rsl event_tsl).
Proof.
  assert (AS : ascending event_times).
  { intros i j [H1 H2]. change (length event_times) with 16 in H2. unfold event_times, at_minutes. rewrite !(get_map _ 0%Z) by (simpl; lia).
    assert (G : (get 0 [0; 7; 15; 22; 30; 37; 45; 52; 60; 67; 75; 82; 90; 97; 105; 112] i < get 0 [0; 7; 15; 22; 30; 37; 45; 52; 60; 67; 75; 82; 90; 97; 105; 112] j)%Z).
    { do 16 (destruct j as [|j]; [do 16 (destruct i as [|i]; [first [reflexivity|lia]|]); lia|]). lia. }
    unfold minute. lia. }
  split; [exact AS|]. split.
  { intros t Ht. unfold event_times, at_minutes in Ht. apply in_map_iff in Ht as (k & <- & Hk).
    assert (K : (0 <= k <= 112)%Z) by (simpl in Hk; lia). split; [unfold one_day, minute; lia|]. exists (18000 * 86400 + k * 60)%Z. unfold one_day, minute. lia. }
  split; [split; [unfold minute; lia|exists 300%Z; reflexivity]|]. split.
  { constructor; [exists 18000%Z, 0%Z|..]; split; reflexivity || (vm_compute; discriminate) || (split; [vm_compute; discriminate|reflexivity]). }
  assert (SH : shaped event_times event_rsl event_tsl).
  { split; [reflexivity|]. intros i Hi. change (length event_rsl) with 3 in Hi. destruct i as [|[|[|i]]]; [split; vm_compute; reflexivity..|lia]. }
  split; [exact SH|]. destruct SH as [SH0 SH].
  assert (LM : forall i, i < 3 -> length (get [] (pmin_of demo_nb event_times event_rsl event_tsl) i) = 8 /\ length (get [] (pmax_of demo_nb event_times event_rsl event_tsl) i) = 8).
  { intros i Hi. unfold pmin_of, pmax_of. rewrite !(get_map2 _ [] []) by (exact Hi || reflexivity). split; unfold link_min, link_max; rewrite resample_length; reflexivity. }
  assert (R1 : record_ok (demo_par 2) demo_net 8 (pmin_of demo_nb event_times event_rsl event_tsl) (pmin_of demo_nb event_times event_rsl event_tsl)).
  { apply demo_ok; [lia|reflexivity|]. intros i Hi. apply LM; auto. }
  destruct R1 as (R1 & _ & _ & R2). split; [exact R1|]. split; [reflexivity|]. split; [|exact R2].
  intros i Hi. apply LM. change (length (pmin_of demo_nb event_times event_rsl event_tsl)) with 3 in Hi. exact Hi.
Qed.
