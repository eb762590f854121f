(** * What the metrics should be: counts and means over the pairs without NaN *)
From Coq Require Import List Reals Bool ZArith.
From Flocq Require Import Core.Raux.
From Verif Require Import Base Num NumList RealStat.
Import ListNotations.

Section Pairs.
Context {O : numops}.
(** pairs with both values present *)
Definition valid_pairs (reference predicted : list O) : list (O * O) :=
  filter (fun p => negb (n_isnan (fst p)) && negb (n_isnan (snd p))) (combine reference predicted).
Definition count {A} (p : A -> bool) (l : list A) : nat := length (filter p l).
Definition wet (t x : O) : bool := n_ltb t x.
Definition dry (t x : O) : bool := negb (n_ltb t x).
(** pairs (reference, predicted) of the four classes, for threshold [t] *)
Definition true_wet (t : O) (p : O * O) := wet t (fst p) && wet t (snd p).
Definition true_dry (t : O) (p : O * O) := dry t (fst p) && dry t (snd p).
Definition false_wet (t : O) (p : O * O) := dry t (fst p) && wet t (snd p).
Definition missed_wet (t : O) (p : O * O) := wet t (fst p) && dry t (snd p).
Definition n_count (n : nat) : O := n_ofZ (Z.of_nat n).
End Pairs.

(** finite or NaN *)
Definition no_inf (l : list XR) : Prop := forall x, In x l -> n_isinf x = false.
(** the valid pairs of arrays without infinities are pairs of reals *)
Definition real_pairs (reference predicted : list XR) (ps : list (R * R)) : Prop :=
  valid_pairs reference predicted = map (fun p => ((XFin (fst p) : XR), (XFin (snd p) : XR))) ps.
Definition diffs (ps : list (R * R)) : list R := map (fun p => (snd p - fst p)%R) ps.

Local Open Scope R_scope.
(** Matthews correlation of a contingency table *)
Definition mcc_real (tp tn fp fn : R) : R := ((tp * tn - fp * fn) / sqrt ((tp + fp) * (tp + fn) * (tn + fp) * (tn + fn)))%R.
(** root mean square error, mean absolute error, standard deviation *)
Definition RMSE (ps : list (R * R)) : R := sqrt (rmean (map (fun d => d * d)%R (diffs ps))).
Definition MAE (ps : list (R * R)) : R := rmean (map Rabs (diffs ps)).
Definition STD (l : list R) : R := sqrt (rmean (map (fun x => (x - rmean l) * (x - rmean l)) l)).
(** sums of products and squares of deviations, Pearson correlation *)
Definition sxy (ps : list (R * R)) : R :=
  rsum (map (fun q => (fst q - rmean (map fst ps)) * (snd q - rmean (map snd ps))) ps).
Definition sxx (l : list R) : R := rsum (map (fun x => (x - rmean l) * (x - rmean l)) l).
Definition pearson_real (ps : list (R * R)) : R := sxy ps / sqrt (sxx (map fst ps) * sxx (map snd ps)).
(** false wet and missed wet pairs for threshold [t] *)
Definition fw (t : R) (q : R * R) : bool := negb (Rlt_bool t (fst q)) && Rlt_bool t (snd q).
Definition mw (t : R) (q : R * R) : bool := Rlt_bool t (fst q) && negb (Rlt_bool t (snd q)).
