(** * Property C147: fill values and the order of gap filling in the notebooks *)
From Coq Require Import List ZArith Bool Reals Lra Lia.
From Verif Require Import Base Num NumF64 NumList KR_spec Workflow_model Workflow_spec NearbyNb_model NearbyNb_spec FillOrder_model FillOrder_spec FillOrder_proofs.
Import ListNotations.
Local Open Scope nat_scope.
Local Notation length := List.length.

(** ** fill values: the range rule of the radar notebook and the [!=] rule of the others *)
Theorem C147_rules_agree : forall (ft fr hi lo : F64) tsl rsl, n_ltb ft hi = false -> n_ltb lo fr = false ->
  plausible ft (below hi) tsl -> plausible fr (above lo) rsl -> total_loss ft fr tsl rsl = radar_loss hi lo tsl rsl.
Proof. exact (rules_agree F64sem f64_one_nan). Qed.
Print Assumptions C147_rules_agree.

(** whatever the levels, the range rule only removes more *)
Theorem C147_range_removes_more : forall (ft fr hi lo : F64) tsl rsl t, n_ltb ft hi = false -> n_ltb lo fr = false -> length rsl = length tsl -> t < length tsl ->
  missing (get n_nan (radar_loss hi lo tsl rsl) t) \/ get n_nan (radar_loss hi lo tsl rsl) t = get n_nan (total_loss ft fr tsl rsl) t.
Proof. exact (radar_subset F64sem). Qed.
Print Assumptions C147_range_removes_more.

(** a level out of range that is not the fill value passes the [!=] rule only *)
Theorem C147_other_values_pass : forall (ft fr hi lo : F64) tsl rsl t, length rsl = length tsl -> t < length tsl ->
  finite (get n_nan tsl t) -> finite (get n_nan rsl t) -> n_eqb (get n_nan tsl t) ft = false -> n_eqb (get n_nan rsl t) fr = false ->
  n_ltb (get n_nan tsl t) hi = false \/ n_ltb lo (get n_nan rsl t) = false ->
  ~ missing (get n_nan (total_loss ft fr tsl rsl) t) /\ missing (get n_nan (radar_loss hi lo tsl rsl) t).
Proof. exact (rules_differ F64sem). Qed.
Print Assumptions C147_other_values_pass.

(** ** loss filled (workflow notebook), or levels filled and subtracted (nearby-link notebook) *)
(** The second order leaves no more missing steps than the first. *)
Theorem C147_order_available_exact : forall (p : raw_par XR) lo hi times (tsl rsl : list XR), ascending times -> length tsl = length times -> length rsl = length times ->
  no_inf tsl -> no_inf rsl -> n_ltb (rp_fill_t p) hi = false -> n_ltb lo (rp_fill_r p) = false -> plausible (rp_fill_t p) (below hi) tsl -> plausible (rp_fill_r p) (above lo) rsl ->
  forall t, t < length times -> ~ missing (get n_nan (prepared p (map n_ofZ times) tsl rsl) t) -> ~ missing (get n_nan (rstl lo hi (rp_max_gap p) times rsl tsl) t).
Proof. exact nb_available. Qed.
Print Assumptions C147_order_available_exact.

(** Levels missing at the same steps: one is the negative of the other. *)
Theorem C147_same_gaps_exact : forall (p : raw_par XR) lo hi times (tsl rsl : list XR), ascending times -> length tsl = length times -> length rsl = length times ->
  no_inf tsl -> no_inf rsl -> n_ltb (rp_fill_t p) hi = false -> n_ltb lo (rp_fill_r p) = false -> plausible (rp_fill_t p) (below hi) tsl -> plausible (rp_fill_r p) (above lo) rsl ->
  forall t, (forall k, k < length times -> sent hi tsl k <-> received lo rsl k) -> t < length times ->
  let trsl := get n_nan (prepared p (map n_ofZ times) tsl rsl) t in let level := get n_nan (rstl lo hi (rp_max_gap p) times rsl tsl) t in
  (missing trsl /\ missing level) \/ exists v, trsl = XFin v /\ level = XFin (- v).
Proof. exact nb_same. Qed.
Print Assumptions C147_same_gaps_exact.

(** Otherwise they agree where both levels were measured, and within a gap up to
    the ranges of the two levels there. *)
Theorem C147_measured_exact : forall (p : raw_par XR) lo hi times (tsl rsl : list XR), length tsl = length times -> length rsl = length times ->
  no_inf tsl -> no_inf rsl -> n_ltb (rp_fill_t p) hi = false -> n_ltb lo (rp_fill_r p) = false -> plausible (rp_fill_t p) (below hi) tsl -> plausible (rp_fill_r p) (above lo) rsl ->
  forall t, t < length times -> sent hi tsl t -> received lo rsl t ->
  exists v, get n_nan (prepared p (map n_ofZ times) tsl rsl) t = XFin v /\ get n_nan (rstl lo hi (rp_max_gap p) times rsl tsl) t = XFin (- v).
Proof. exact nb_measured. Qed.
Print Assumptions C147_measured_exact.
Theorem C147_gap_bound_exact : forall (p : raw_par XR) lo hi times (tsl rsl : list XR), ascending times -> length tsl = length times -> length rsl = length times ->
  no_inf tsl -> no_inf rsl -> n_ltb (rp_fill_t p) hi = false -> n_ltb lo (rp_fill_r p) = false -> plausible (rp_fill_t p) (below hi) tsl -> plausible (rp_fill_r p) (above lo) rsl ->
  forall t i j d e, in_gap (fun k => sent hi tsl k /\ received lo rsl k) (length times) i t j -> short (map n_ofZ times) (rp_max_gap p) i j ->
  spread (sent hi tsl) tsl i j d -> spread (received lo rsl) rsl i j e ->
  opposite_within (d + e) (get n_nan (prepared p (map n_ofZ times) tsl rsl) t) (get n_nan (rstl lo hi (rp_max_gap p) times rsl tsl) t).
Proof. exact nb_bound. Qed.
Print Assumptions C147_gap_bound_exact.

(** ** concrete cases: transmitted level 255 and received level -99 are fill values *)
Definition par (g : Z) : raw_par F64 := mk_raw_par #255 #(-99) #g 60 #1.
Definition lev (g : Z) (tsl rsl : list F64) : list F64 := rstl #(-99) #255 #g [0; 1; 2; 3]%Z rsl tsl.
Definition los (g : Z) (tsl rsl : list F64) : list F64 := prepared (par g) (map n_ofZ [0; 1; 2; 3]%Z) tsl rsl.

(** neither the steps filled nor the values agree if the levels are missing at different steps *)
Lemma order_steps : (f_same_list (los 2 [#10; #255; #10; #10] [#(-40); #(-40); #(-99); #(-40)]) [#50; fNaN; fNaN; #50] &&
  f_same_list (lev 2 [#10; #255; #10; #10] [#(-40); #(-40); #(-99); #(-40)]) [#(-50); #(-50); #(-50); #(-50)]) = true.
Proof. vm_compute. reflexivity. Qed.
Lemma order_values : (f_same_list (los 5 [#10; #255; #14; #10] [#(-40); #(-40); #(-99); #(-40)]) [#50; #50; #50; #50] &&
  f_same_list (lev 5 [#10; #255; #14; #10] [#(-40); #(-40); #(-99); #(-40)]) [#(-50); #(-52); #(-54); #(-50)]) = true.
Proof. vm_compute. reflexivity. Qed.
Theorem C147_order_refuted :
  (exists tsl rsl, f_same_list (los 2 tsl rsl) [#50; fNaN; fNaN; #50] && f_same_list (lev 2 tsl rsl) [#(-50); #(-50); #(-50); #(-50)] = true) /\
  (exists tsl rsl, f_same_list (los 5 tsl rsl) [#50; #50; #50; #50] && f_same_list (lev 5 tsl rsl) [#(-50); #(-52); #(-54); #(-50)] = true).
Proof. exact (conj (ex_intro _ _ (ex_intro _ _ order_steps)) (ex_intro _ _ (ex_intro _ _ order_values))). Qed.
Print Assumptions C147_order_refuted.

Example C147_case_same_gaps : (f_same_list (los 5 [#10; #255; #255; #16] [#(-40); #(-99); fNaN; #(-43)]) [#50; #53; #56; #59] &&
  f_same_list (lev 5 [#10; #255; #255; #16] [#(-40); #(-99); fNaN; #(-43)]) [#(-50); #(-53); #(-56); #(-59)]) = true.
Proof. vm_compute. reflexivity. Qed.
Example C147_case_rules : (f_same_list (total_loss #255 #(-99) [#10; #255; #150; #10] [#(-40); #(-40); #(-40); #(-99)]) [#50; fNaN; #190; fNaN] &&
  f_same_list (radar_loss #100 #(-99) [#10; #255; #150; #10] [#(-40); #(-40); #(-40); #(-99)]) [#50; fNaN; fNaN; fNaN]) = true.
Proof. vm_compute. reflexivity. Qed.
Example C147_case_plausible : plausible (#255 : F64) (below #100) [#10; #255; fNaN; #12] /\ n_ltb (#255 : F64) #100 = false.
Proof. split; [|vm_compute; reflexivity]. intros v [<-|[<-|[<-|[<-|[]]]]]; [right; right|right; left|left|right; right]; vm_compute; reflexivity. Qed.
