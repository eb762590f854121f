(** * Property C126: Validator.calc_stats *)
From Coq Require Import List ZArith Bool.
From Verif Require Import Base Num NumF64 CalcStats_model CalcStats_spec CalcStats_proofs.
Import ListNotations.
Local Open Scope Z_scope.

(** Where pandas compares texts and timestamps as Python objects, the result for a
    time series with timestamps does not depend on the data: it is the correlation
    of no pairs (NaN). *)
Theorem C126_timestamps_never_match_refuted : forall (corr : list (F64 * F64) -> F64) (t : list Z) (v : list F64) times (values : list F64),
  fst (calc_stats corr false (Stamps t, v) (Stamps times, values)) = Ok (corr []).
Proof. intros. cbn [calc_stats strftime fst snd]. rewrite (no_match F64sem). reflexivity. Qed.
Print Assumptions C126_timestamps_never_match_refuted.

(** Where pandas parses the texts, it is the correlation of all measured pairs of
    the same second. *)
Theorem C126_pairs_of_the_same_second : forall (corr : list (F64 * F64) -> F64) (t : list Z) (v : list F64) times (values : list F64),
  fst (calc_stats corr true (Stamps t, v) (Stamps times, values)) = Ok (corr (compared (combine times values) (combine t v))).
Proof. intros. cbn [calc_stats strftime fst snd]. rewrite (match_promoted F64sem). reflexivity. Qed.
Print Assumptions C126_pairs_of_the_same_second.

(** minutes 1 to 4 and minutes 2 to 5, one of them not on the full second, one
    missing: only the values of minute 2 are compared *)
Example C126_case : let m := 60 * 1000000000 in
  map (fun p => f_same_list [fst p; snd p] [#20; #5])
    (compared [(m, #10); (2 * m, #20); (3 * m, #30); (4 * m + 500, #40)] [(2 * m + 7, #5); (3 * m, fNaN); (4 * m, #7); (5 * m, #8)]) = [true].
Proof. vm_compute. reflexivity. Qed.

(** The CML is changed: its index holds texts afterwards, so that a second call
    with the same CML raises. *)
Theorem C126_second_call_refuted : forall (corr : list (F64 * F64) -> F64) promote (t : list Z) (v : list F64) ts,
  let after := snd (calc_stats corr promote (Stamps t, v) ts) in
  fst after <> Stamps t /\ snd after = v /\ forall ts', calc_stats corr promote after ts' = (Err AttributeError, after).
Proof. intros. cbn [calc_stats strftime fst snd] in after. split; [discriminate|]. split; reflexivity. Qed.
Print Assumptions C126_second_call_refuted.
