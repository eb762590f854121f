(** * Property C145: rain sums of the notebooks *)
From Coq Require Import List ZArith Bool Reals Lra Lia Sorted Permutation.
From Verif Require Import Base Num NumF64 NumList RealSpec RealStat KR_spec RainMap_spec NearbyNb_model NearbyNb_spec RainSum_model RainSum_spec RainSum_proofs.
Import ListNotations.
Local Open Scope nat_scope.
Local Notation length := List.length.

(** Every sum is that of the samples measured in its bin, over [c], and the sums
    add up to the sum of all measured samples: none is lost or counted twice. *)
Theorem C145_sums_exact : forall (w : Z) (c : R) (times : list Z) (l : list XR) (a : Z) (N : nat), (0 < w)%Z -> c <> 0%R -> ascending times -> times <> [] -> length l = length times ->
  plain_series l -> bins w times a N ->
  exists s, rain_sums w (XFin c : XR) times l = ofR s /\ length s = N /\
  (forall n, n < N -> rget s n = (sum_in times l (a + w * Z.of_nat n) (a + w * Z.of_nat n + w) / c)%R) /\
  (rsum s = rsum (numbers l) / c)%R.
Proof. exact sums_exact. Qed.
Print Assumptions C145_sums_exact.

(** The same of the reference of the nearby-link notebook, times [c]. *)
Theorem C145_reference_exact : forall (w : Z) (c : R) (times : list Z) (l : list XR) (a : Z) (N : nat), (0 < w)%Z -> ascending times -> times <> [] -> length l = length times ->
  plain_series l -> bins w times a N ->
  exists s, reference_rates w (XFin c : XR) times l = ofR s /\ length s = N /\
  (forall n, n < N -> rget s n = (sum_in times l (a + w * Z.of_nat n) (a + w * Z.of_nat n + w) * c)%R) /\
  (rsum s = rsum (numbers l) * c)%R.
Proof. exact reference_exact. Qed.
Print Assumptions C145_reference_exact.

(** Means are missing exactly where nothing was measured. *)
Theorem C145_means_exact : forall (w : Z) (times : list Z) (l : list XR) (a : Z) (N : nat), (0 < w)%Z -> ascending times -> times <> [] -> length l = length times ->
  plain_series l -> bins w times a N ->
  length (rain_means w times l) = N /\ forall n, n < N ->
  let f := (a + w * Z.of_nat n)%Z in let k := measured_in times l f (f + w) in let v := get (n_nan : XR) (rain_means w times l) n in
  (k = 0 -> v = (XNaN : XR)) /\ (k <> 0 -> v = (XFin (sum_in times l f (f + w) / INR k) : XR)).
Proof. exact means_exact. Qed.
Print Assumptions C145_means_exact.

(** A sum is short of mean times duration by the share of missing samples: with
    [m] samples per bin ([c = 60] and [m = 5] for minutes and [5min] sums) of which
    [k] were measured it is [k / m] of it. *)
Theorem C145_sum_below_mean_exact : forall (w : Z) (c : R) (times : list Z) (l : list XR) (a : Z) (N m n : nat), (0 < w)%Z -> (0 < c)%R -> ascending times -> times <> [] -> length l = length times ->
  plain_series l -> (forall x, In x l -> (0 <= part x)%R) -> bins w times a N -> n < N ->
  let f := (a + w * Z.of_nat n)%Z in let k := measured_in times l f (f + w) in
  0 < k <= m -> exists s r, get (n_nan : XR) (rain_sums w (XFin c : XR) times l) n = (XFin s : XR) /\ get (n_nan : XR) (rain_means w times l) n = (XFin r : XR) /\
  (s = INR k / INR m * (r * INR m / c))%R /\ (s <= r * INR m / c)%R /\ (s = r * INR m / c <-> k = m \/ r = 0)%R.
Proof. exact sum_below_mean. Qed.
Print Assumptions C145_sum_below_mean_exact.

(** In binary64: where nothing was measured the sum is 0 like in dry weather, while
    the mean is missing. *)
Theorem C145_gap_is_dry : forall (w : Z) (c : F64) (times : list Z) (l : list F64) (a : Z) (N n : nat), (0 < w)%Z -> positive c -> finite c -> ascending times -> times <> [] ->
  length l = length times -> bins w times a N -> n < N ->
  measured_in times l (a + w * Z.of_nat n) (a + w * Z.of_nat n + w) = 0 ->
  n_eqb (get n_nan (rain_sums w c times l) n) zero = true /\ missing (get n_nan (rain_means w times l) n).
Proof. exact (gap_sum F64sem). Qed.
Print Assumptions C145_gap_is_dry.

(** Sums over [w], summed over [k w], are the sums over [k w]. *)
Theorem C145_nested_sums_exact : forall (w k : Z) (times : list Z) (l : list XR) (a : Z) (N : nat), (0 < w)%Z -> (0 < k)%Z -> ascending times -> times <> [] -> length l = length times ->
  plain_series l -> bins w times a N ->
  resample nan_sum (k * w) (map (fun n => (a + w * Z.of_nat n)%Z) (seq 0 N)) (resample nan_sum w times l) = resample nan_sum (k * w) times l.
Proof. exact nested_sums. Qed.
Print Assumptions C145_nested_sums_exact.

Local Notation minute := (60 * 10 ^ 9)%Z.
Local Notation minutes := (map (fun i => (minute * i)%Z)).
Local Notation t4 := (minutes [0; 1; 2; 3]%Z).
Local Notation r4 := ([#0; #0; fNaN; #9] : list F64).
Lemma mean_of_means : f_same_list (rain_means (2 * (2 * minute)) (minutes [0; 2]%Z) (rain_means (2 * minute) t4 r4)) [n_div (#9) (#2)] = true.
Proof. vm_compute. reflexivity. Qed.
Lemma mean_of_all : f_same_list (rain_means (2 * (2 * minute)) t4 r4) [#3] = true.
Proof. vm_compute. reflexivity. Qed.
(** Means of means are not the means over the longer time where samples are missing. *)
Theorem C145_nested_means_refuted : exists (w k : Z) (times labels : list Z) (r : list F64), (0 < w)%Z /\ (0 < k)%Z /\ length r = length times /\ labels = map (bin_label w times) (seq 0 (bin_count w times)) /\
  f_same_list (rain_means (k * w) labels (rain_means w times r)) [n_div (#9) (#2)] = true /\ f_same_list (rain_means (k * w) times r) [#3] = true.
Proof.
  exists (2 * minute)%Z, 2%Z, t4, (minutes [0; 2]%Z), r4. do 4 (split; [reflexivity|]). exact (conj mean_of_means mean_of_all).
Qed.
Print Assumptions C145_nested_means_refuted.

(** The accumulation at each time is the sum up to it, never missing. *)
Theorem C145_accumulation_exact : forall (c : R) (l : list XR), c <> 0%R -> plain_series l ->
  accumulation (XFin c : XR) l = ofR (map (fun k => rsum (map part (firstn (Datatypes.S k) l)) / c)%R (seq 0 (length l))).
Proof. exact accumulation_exact. Qed.
Print Assumptions C145_accumulation_exact.

(** In binary64 it is never missing nor negative, and never decreases. *)
Theorem C145_accumulation_grows : forall (c : F64) (l : list F64), positive c -> finite c -> (forall v, In v l -> rain_or_missing v) ->
  length (accumulation c l) = length l /\ (forall i, i < length l -> nonneg (get n_nan (accumulation c l) i)) /\
  (forall i j, i <= j -> j < length l -> n_leb (get n_nan (accumulation c l) i) (get n_nan (accumulation c l) j) = true).
Proof. exact (accumulation_grows F64sem). Qed.
Print Assumptions C145_accumulation_grows.

(** The sorted curve is the partial sums of the sorted numbers followed by as many
    missing values as the series has; so it does not depend on the order in time. *)
Theorem C145_curve_exact : forall (c : R) (l : list XR), c <> 0%R -> plain_series l -> exists s, Sorted Rle s /\ Permutation s (map (fun x => x / c)%R (numbers l)) /\
  sorted_curve (XFin c : XR) l = ofR (partial_sums s) ++ repeat (XNaN : XR) (missing_count l).
Proof. exact curve_exact. Qed.
Print Assumptions C145_curve_exact.
Theorem C145_curve_order_exact : forall (c : R) (l l' : list XR), c <> 0%R -> plain_series l -> Permutation l l' -> sorted_curve (XFin c : XR) l = sorted_curve (XFin c : XR) l'.
Proof. exact curve_order. Qed.
Print Assumptions C145_curve_order_exact.

(** ** cases *)
Local Notation t7 := (minutes [3; 4; 5; 6; 7; 13; 14]%Z).
Local Notation r7 := ([#6; #12; fNaN; #3; #0; fNaN; #30] : list F64).
Example C145_case_sums : f_same_list (rain_sums (5 * minute) (#2) t7 r7) [#9; n_div (#3) (#2); #15] = true.
Proof. vm_compute. reflexivity. Qed.
Example C145_case_means : f_same_list (rain_means (5 * minute) t7 r7) [#9; n_div (#3) (#2); #30] = true.
Proof. vm_compute. reflexivity. Qed.
Example C145_case_gap : f_same_list (rain_sums minute (#2) (minutes [0; 1; 3]%Z) [#4; fNaN; #8]) [#2; #0; #0; #4] = true /\
  f_same_list (rain_means minute (minutes [0; 1; 3]%Z) ([#4; fNaN; #8] : list F64)) [#4; fNaN; fNaN; #8] = true.
Proof. vm_compute. auto. Qed.
Example C145_case_reference : f_same_list (reference_rates (5 * minute) (#4) t7 r7) [#72; #12; #120] = true.
Proof. vm_compute. reflexivity. Qed.
Example C145_case_accumulation : f_same_list (accumulation (#2) r7) [#3; #9; #9; n_div (#21) (#2); n_div (#21) (#2); n_div (#21) (#2); n_div (#51) (#2)] = true.
Proof. vm_compute. reflexivity. Qed.
Example C145_case_curve : f_same_list (sorted_curve (#3) r7) [#0; #1; #3; #7; #17; fNaN; fNaN] = true.
Proof. vm_compute. reflexivity. Qed.
