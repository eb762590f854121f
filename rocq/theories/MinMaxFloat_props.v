(** * Property C27 in binary64 *)
From Coq Require Import Reals Lra Lia ZArith Bool List.
From Flocq Require Import Core.
From Verif Require Import Base Num NumF64 NumList NpOps RealStat Ulp64 MinMax_model MinMax_spec HaversineFloat_spec HaversineFloat_proofs FloatErr_spec MinMaxFloat_spec MinMaxFloat_proofs.
Import ListNotations.
Local Open Scope R_scope.

(** With levels and antenna gains of moderate size and at least one number in
    each corrected series, no entry after the first window is NaN: missing
    values are replaced by an integer within 1/2 + 2^-18 of the exact mean of
    the others, and each entry is the rounded positive difference. *)
Theorem C27_float_no_nan : forall (tx_min tx_max rx_min rx_max : list F64) (gT gR : F64) tT tR window n,
  length tx_min = n -> length tx_max = n -> length rx_min = n -> length rx_max = n -> INR n <= 2 ^ 20 ->
  (forall x, In x (tx_min ++ tx_max ++ rx_min ++ rx_max) -> level (2 ^ 10) x) -> is_num gT tT -> is_num gR tR -> Rabs tT <= 2 ^ 10 -> Rabs tR <= 2 ^ 10 ->
  let cmax := corrected_max tx_max rx_min gT gR in let cmin := corrected_min tx_min rx_max gT gR in
  (exists i, (i < n)%nat /\ n_isnan (cmax i) = false) -> (exists i, (i < n)%nat /\ n_isnan (cmin i) = false) ->
  exists ymax ymin (fmax fmin : Z) out, are_nums (numbers cmax n) ymax /\ are_nums (numbers cmin n) ymin /\
    Rabs (IZR fmax - rmean ymax) <= / 2 + / 2 ^ 18 /\ Rabs (IZR fmin - rmean ymin) <= / 2 + / 2 ^ 18 /\
    calc_A_min_max tx_min tx_max rx_min rx_max gT gR window = Ok out /\ length out = n /\
    forall i, (i < n)%nat -> (window <= i)%nat ->
    exists x m v, is_num (filled (n_ofZ fmax) (cmax i)) x /\
      (exists k, (i - window <= k <= i)%nat /\ is_num (filled (n_ofZ fmin) (cmin k)) m) /\
      (forall k, (i - window <= k <= i)%nat -> exists y, is_num (filled (n_ofZ fmin) (cmin k)) y /\ m <= y) /\
      is_num (get n_nan out i) v /\ v = Rmax 0 (rnd64 (x - m)).
Proof. exact min_max_numbers. Qed.
Print Assumptions C27_float_no_nan.

(** the series of C26_case meet the hypotheses *)
Example C27_case_float : let tx := [#0; #0; #0; #0] in let lo := [#(-50); #(-50); #(-53); fNaN] in let hi := [#(-50); #(-50); #(-52); #(-50)] in
  (forall x, In x (tx ++ tx ++ lo ++ hi) -> level (2 ^ 10) x) /\ n_isnan (corrected_max tx lo #0 #0 0) = false /\ n_isnan (corrected_min tx hi #0 #0 0) = false /\
  is_num #0 0.
Proof.
  cbv zeta. split; [|split; [vm_compute; reflexivity|split; [vm_compute; reflexivity|apply (num_ofZ 0); lia]]].
  assert (A : forall z, (Z.abs z <= 1000)%Z -> level (2 ^ 10) (#z)).
  { intros z B. right. exists (IZR z). split; [apply num_ofZ; lia|]. rewrite <- abs_IZR. apply IZR_le in B. simpl. lra. }
  intros x I. repeat (destruct I as [<-|I]; [first [left; reflexivity|apply A; lia]|]). destruct I.
Qed.

