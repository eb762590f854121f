(** * Properties C41 and C110 in binary64: which values matter, and order *)
From Coq Require Import Lia ZArith Bool List.
From Verif Require Import Base Num NumF64 NumList NpOps Libm Libm64 Chain_spec Idw_model Idw_spec RainMap_spec RainMap_proofs RainMap_props IdwFloat_proofs BaselineFloat_proofs.
Import ListNotations.
Local Open Scope nat_scope.

(** Any neighbour search, any power function: the value at a query point
    depends on the values at the data points returned by the search only. *)
Theorem C41_only_returned_values_matter : forall (L : libm F64) query X t qs z z' k eps p ub v v',
  new_tree X = Ok t -> snd (tree_call L query t qs z k eps p ub) = Ok v -> snd (tree_call L query t qs z' k eps p ub) = Ok v' ->
  forall j d, j < length qs -> (forall e, In e (query X (get d qs j) k eps ub) -> snd e < length X -> nget z (snd e) = nget z' (snd e)) -> nget v j = nget v' j.
Proof.
  intros L query X t qs z z' k eps p ub v v' HT H1 H2 j d Hj HE.
  destruct (tree_call_get L query X t qs z k eps p ub v HT H1) as (_ & L1 & G1). destruct (tree_call_get L query X t qs z' k eps p ub v' HT H2) as (_ & L2 & G2).
  rewrite (G1 j d Hj), (G2 j d Hj). unfold idw_one. rewrite L1, L2. set (row := filter _ _).
  assert (HR : forall e, In e row -> nget z (snd e) = nget z' (snd e)). { intros e I. apply filter_In in I as (I & B). apply Nat.ltb_lt in B. auto. }
  destruct row as [|(d0, i0) r]; [reflexivity|]. destruct (n_ltb d0 (n_lit 1 10)); [exact (HR (d0, i0) (or_introl eq_refl))|]. cbv zeta. do 2 f_equal.
  apply map_ext_in. auto.
Qed.
Print Assumptions C41_only_returned_values_matter.

Example C41_case_float : exists t v v', new_tree [(n_ofZ 0, n_ofZ 0); (n_ofZ 4, n_ofZ 0); (n_ofZ 90, n_ofZ 0)] = Ok t /\
  snd (tree_call F64demo brute_query t [(n_ofZ 1, n_ofZ 0)] [n_ofZ 3; n_ofZ 7; n_ofZ 100] 2 zero (n_ofZ 1) None) = Ok [v] /\
  snd (tree_call F64demo brute_query t [(n_ofZ 1, n_ofZ 0)] [n_ofZ 3; n_ofZ 7; n_nan] 2 zero (n_ofZ 1) None) = Ok [v'] /\ f_same_list [v; v'] [n_ofZ 4; n_ofZ 4] = true.
Proof. do 3 eexists. split; [reflexivity|]. split; [reflexivity|]. split; [reflexivity|]. vm_compute. reflexivity. Qed.

(** Larger data never give a smaller value, rounding included, if the power
    function gives weights that are not negative. *)
Theorem C110_monotone : forall (L : libm F64) query X t qs z z' k eps p ub v v',
  weights_sane L p -> distances_ok query -> new_tree X = Ok t ->
  snd (tree_call L query t qs z k eps p ub) = Ok v -> snd (tree_call L query t qs z' k eps p ub) = Ok v' ->
  (forall i, i < length X -> le_or_missing (nget z i) (nget z' i)) -> forall j, j < length qs -> le_or_missing (nget v j) (nget v' j).
Proof.
  intros L query X t qs z z' k eps p ub v v' HW HQ HT H1 H2 HZ j Hj.
  destruct (tree_call_get L query X t qs z k eps p ub v HT H1) as (_ & L1 & G1). destruct (tree_call_get L query X t qs z' k eps p ub v' HT H2) as (_ & L2 & G2).
  destruct qs as [|d qs']; [cbn in Hj; lia|]. rewrite (G1 j d Hj), (G2 j d Hj).
  destruct (idw_mono F64sem L z z' p (query X (get d (d :: qs') j) k eps ub)) as [K|[K|K]]; auto; try congruence.
  - intros e i I B. rewrite L1 in B. apply (HQ _ _ _ _ _ _ _ I B).
  - intros i Hi. rewrite L1 in Hi. destruct (HZ i Hi) as [K|[K|K]]; unfold weakly; auto.
  - right. right. exact K.
  - left. exact K.
  - right. left. exact K.
Qed.
Print Assumptions C110_monotone.

(** In exact arithmetic shifting all data by a number shifts the value by that
    number.  In binary64 it need not: the weights do not add up to one. *)
Theorem C110_shift_refuted : exists t v v', new_tree [(n_ofZ 0, n_ofZ 0); (n_ofZ 5, n_ofZ 0)] = Ok t /\
  snd (tree_call F64demo brute_query t [(n_ofZ 1, n_ofZ 0)] [n_ofZ 0; n_ofZ 0] 2 zero (n_ofZ 1) None) = Ok [v] /\
  snd (tree_call F64demo brute_query t [(n_ofZ 1, n_ofZ 0)] [n_ofZ 3; n_ofZ 3] 2 zero (n_ofZ 1) None) = Ok [v'] /\
  n_eqb v (n_ofZ 0) = true /\ n_eqb v' (n_ofZ 3) = false.
Proof. do 3 eexists. split; [reflexivity|]. split; [reflexivity|]. split; [reflexivity|]. split; vm_compute; reflexivity. Qed.
Print Assumptions C110_shift_refuted.
