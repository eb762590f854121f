(** * Model of docs/notebooks/Blackout gap detection examples.ipynb

    Lines of the JSON file.  The scan itself is [notebook_mask]
    (Blackout_model.v). *)
From Coq Require Import List ZArith Bool.
From Verif Require Import Base Num NumList Blackout_model.
Import ListNotations.
Local Open Scope nat_scope.

(** 51, 368: [rsl.where(rsl > -99)] *)
Definition where_above {O : numops} (limit : O) (l : list O) : list O := map (fun v => if n_ltb limit v then v else n_nan) l.
(** 51-89, 645-660 *)
Definition blackout_mask {O : numops} (fill rsl_threshold : O) (raw : list O) : res (list bool) :=
  notebook_mask (where_above fill raw) rsl_threshold.

(** 678-680: [(np.diff(times) / 60000000000).astype(int) < 60], times in ns.
    Simplified: numpy divides timedelta64 by an integer with truncation. *)
Fixpoint np_diff (l : list Z) : list Z :=
  match l with a :: (b :: _) as t => (b - a)%Z :: np_diff t | _ => [] end.
Definition very_close_gaps (times : list Z) : list bool := map (fun d => Z.ltb (Z.quot d 60000000000) 60) (np_diff times).
(** indexing with a boolean array of another length is an IndexError *)
Definition bool_index {A} (l : list A) (keep : list bool) : res (list A) :=
  if Nat.eqb (length l) (length keep) then Ok (map fst (filter snd (combine l keep))) else Err IndexError.
(** 681; [times] are the times of the samples in [gap_start] *)
Definition gap_time (times : list Z) : res (list Z) := bool_index times (map negb (very_close_gaps times ++ [true])).
