(** * What the TensorFlow inference functions are for *)
From Coq Require Import List ZArith Bool String.
From Verif Require Import Base Num NumList TfInfer_model.
Import ListNotations.
Local Open Scope nat_scope.
Local Notation length := List.length.

Section Spec.
Context {O : numops}.

(** prediction [k] (value, link, time index) is for cell [(t, j)]; a link id
    names its first column, a negative index counts from the end *)
Definition addresses (n_time : nat) (ids use : list string) (r : O * string * Z) (t j : nat) : Prop :=
  let '(_, c, i) := r in
  In c use /\ j < length ids /\ get EmptyString ids j = c /\ (forall j', j' < j -> get EmptyString ids j' <> c) /\
  (i = Z.of_nat t \/ i = Z.of_nat t - Z.of_nat n_time)%Z.
(** the last prediction for a cell *)
Definition last_for (n_time : nat) (ids use : list string) (recs : list (O * string * Z)) (t j : nat) (v : O) : Prop :=
  exists a r b, recs = a ++ r :: b /\ addresses n_time ids use r t j /\ fst (fst r) = v /\ forall r', In r' b -> ~ addresses n_time ids use r' t j.

(** value of variable [v] of link [i] at time [t] *)
Definition value_at (ds : dataset O) (v : string) (i t : nat) (x : O) : Prop :=
  exists k, k < length (ds_vars ds) /\ fst (get (EmptyString, []) (ds_vars ds) k) = v /\
    (forall k', k' < k -> fst (get (EmptyString, []) (ds_vars ds) k') <> v) /\ x = nget (get [] (snd (get (EmptyString, []) (ds_vars ds) k)) i) t.
(** the window of [seq_len] steps of link [i] ending at [t], all values finite *)
Definition window (ds : dataset O) (vars : list string) (seq_len i t : nat) (w : list (list O)) : Prop :=
  t < ds_time ds /\ seq_len <= t + 1 /\ length w = seq_len /\
  forall s, s < seq_len -> length (get [] w s) = length vars /\
    forall k, k < length vars -> value_at ds (get EmptyString vars k) i (t + 1 - seq_len + s) (nget (get [] w s) k) /\
      n_isnan (nget (get [] w s) k) = false /\ n_isinf (nget (get [] w s) k) = false.
Definition has_vars (ds : dataset O) (vars : list string) : Prop := forall v, In v vars -> In v (map fst (ds_vars ds)).
(** each value of a window shifted and divided per variable *)
Definition scaled (ps : list (O * O)) (w z : list (list O)) : Prop :=
  length z = length w /\ forall s, s < length w -> length (get [] z s) = length (get [] w s) /\
    forall k, k < length (get [] w s) -> nget (get [] z s) k = n_div (n_sub (nget (get [] w s) k) (fst (get (n_nan, n_nan) ps k))) (snd (get (n_nan, n_nan) ps k)).
(** the predictions as (value, link, time index) records, and the links to store *)
Definition zip3 (p : list O) (c : list string) (t : list Z) : list (O * string * Z) := combine (combine p c) t.
Definition used (cml_ids : list string) (u : option (list string)) : list string := match u with Some l => l | None => cml_ids end.

(** the links asked for; all by default *)
Definition links_of (ds : dataset O) (sel : option (list string)) : list string := match sel with Some l => l | None => ds_ids ds end.
Definition has_window (ds : dataset O) vars seq_len (sel : option (list string)) (j t : nat) (w : list (list O)) : Prop :=
  j < length (ds_ids ds) /\ In (get EmptyString (ds_ids ds) j) (links_of ds sel) /\ window ds vars seq_len j t w.
(** [X] holds one entry for each (link, end time) with a window: the list of
    these places [K] has no repetitions unless the caller repeats a link *)
Definition all_windows (ds : dataset O) vars seq_len sel (X : list (list (list O))) : Prop := exists K : list (nat * nat),
  Forall2 (fun jt w => has_window ds vars seq_len sel (fst jt) (snd jt) w) K X /\
  (forall j t w, has_window ds vars seq_len sel j t w -> In (j, t) K) /\ (NoDup (links_of ds sel) -> NoDup K).
End Spec.

(** ** features in exact arithmetic *)
From Coq Require Import Reals.
From Verif Require Import RealSpec RealStat.
(** all values of feature [i] of an array (samples, steps, features) *)
Definition featR (i : nat) (X : list (list (list R))) : list R := List.concat (map (map (fun row => rget row i)) X).
Definition ofR3 (X : list (list (list R))) : list (list (list XR)) := map (map ofR) X.
Definition rectangular (F : nat) (X : list (list (list R))) : Prop := forall w row, In w X -> In row w -> length row = F.
Definition rvar (l : list R) : R := rmean (map (fun x => (x - rmean l) * (x - rmean l))%R l).
(** scikit-learn's tolerance: such a feature counts as constant *)
Definition nearly_constant (l : list R) : Prop :=
  let n := INR (length l) in let eps := (/ 2 ^ 52)%R in
  (rvar l <= n * eps * rvar l + (n * rmean l * eps) * (n * rmean l * eps))%R.
