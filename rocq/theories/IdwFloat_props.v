(** * Property C39 in binary64: IDW values stay within the neighbour values up to rounding *)
From Coq Require Import Reals Lra Lia ZArith Bool List.
From Verif Require Import Base Num NumF64 NumList NpOps RealStat Libm Libm64 Idw_model Idw_spec HaversineFloat_spec HaversineFloat_proofs IdwFloat_proofs.
Import ListNotations.
Local Open Scope R_scope.

(** Any neighbour search, any power function: if the powers of the distances of
    the neighbours that count are neither huge nor tiny, the value at a grid
    point is a number between the neighbour values up to a few units in the
    last place; it is not negative if none of them is, and zero if all are. *)
Theorem C39_float_range : forall (L : libm F64) query X t qs z k eps p ub v,
  new_tree X = Ok t -> snd (tree_call L query t qs z k eps p ub) = Ok v ->
  length v = length qs /\ forall j d, (j < length qs)%nat ->
  let used := filter (fun e => Nat.ltb (snd e) (length X)) (query X (get d qs j) k eps ub) in
  used <> [] -> INR (length used) <= 2 ^ 20 ->
  (forall e, In e used -> exists r, is_num (m_pow L (fst e) p) r /\ / 2 ^ 200 <= r <= 2 ^ 200) ->
  forall lo hi M, (forall e, In e used -> exists r, is_num (nget z (snd e)) r /\ lo <= r <= hi) -> - M <= lo -> hi <= M -> M <= 2 ^ 200 ->
  exists r, is_num (nget v j) r /\ let e := 10 * INR (length used) * M / 2 ^ 53 + 4 * INR (length used) / 2 ^ 1074 in
    lo - e <= r <= hi + e /\ (0 <= lo -> 0 <= r) /\ (lo = 0 -> hi = 0 -> r = 0).
Proof.
  intros L query X t qs z k eps p ub v HT HC. destruct (tree_call_get L query X t qs z k eps p ub v HT HC) as (HL & HZ & HG). split; [exact HL|].
  intros j d Hj. rewrite (HG j d Hj), <- HZ. apply idw_one_range.
Qed.
Print Assumptions C39_float_range.

(** Rounding does leave the range: two stations at distances 1 and 4 that both
    report 3 give a value above 3. *)
Theorem C39_float_range_refuted : exists (X : list (F64 * F64)) t v, new_tree X = Ok t /\
  snd (tree_call F64demo brute_query t [(n_ofZ 1, n_ofZ 0)] [n_ofZ 3; n_ofZ 3] 2 zero (n_ofZ 1) None) = Ok [v] /\ n_ltb (n_ofZ 3) v = true.
Proof.
  exists [(n_ofZ 0, n_ofZ 0); (n_ofZ 5, n_ofZ 0)]. eexists. eexists. split; [reflexivity|]. split; [reflexivity|]. vm_compute. reflexivity.
Qed.
Print Assumptions C39_float_range_refuted.

(** three stations, the last one out of reach *)
Example C39_case_float : exists t v, new_tree [(n_ofZ 0, n_ofZ 0); (n_ofZ 5, n_ofZ 0); (n_ofZ 90, n_ofZ 0)] = Ok t /\
  snd (tree_call F64demo brute_query t [(n_ofZ 1, n_ofZ 0)] [n_ofZ 3; n_ofZ 7; n_ofZ 100] 3 zero (n_ofZ 1) (Some (n_ofZ 50))) = Ok [v] /\
  n_leb (n_ofZ 3) v = true /\ n_leb v (n_ofZ 4) = true.
Proof.
  eexists. eexists. split; [reflexivity|]. split; [reflexivity|]. split; vm_compute; reflexivity.
Qed.
