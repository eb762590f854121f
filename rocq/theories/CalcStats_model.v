(** * Model of Validator.calc_stats in /repo/pycomlink/validation/validator.py

    Oracle: [corr] is pandas' [Series.corr] on the pairs in which both values are
    valid.  Simplified: a text made by [strftime("%Y-%m-%d %H:%M:%S")] is represented
    by the number of its second, which it determines; times are nanoseconds. *)
From Coq Require Import List ZArith Bool.
From Verif Require Import Base Num.
Import ListNotations.
Local Open Scope Z_scope.

(** the index of a data frame: timestamps, or texts *)
Inductive frame_index := Stamps (ns : list Z) | Texts (seconds : list Z).
Inductive label := Stamp (ns : Z) | Text (second : Z).
Definition labels (i : frame_index) : list label := match i with Stamps l => map Stamp l | Texts l => map Text l end.

(** a DatetimeIndex has [strftime], an index of texts has not *)
Definition strftime (i : frame_index) : res frame_index :=
  match i with Stamps l => Ok (Texts (map (fun ns => ns / 1000000000) l)) | Texts _ => Err AttributeError end.

Section M.
Context {O : numops}.
Variable corr : list (O * O) -> O.
(** older pandas parse the texts when they are joined with timestamps ([promote]),
    newer compare them as Python objects *)
Variable promote : bool.
Definition same_label (a b : label) : bool :=
  match a, b with
  | Stamp n, Stamp m => n =? m
  | Text n, Text m => n =? m
  | Stamp n, Text m | Text m, Stamp n => promote && (n =? m * 1000000000)
  end.

(** [left.join(right)]: every row of [left] with all rows of [right] that have its
    label, or with NaN if there is none *)
Definition join (left right : list (label * O)) : list (O * O) :=
  flat_map (fun r => match filter (fun q => same_label (fst r) (fst q)) right with
                     | [] => [(snd r, n_nan)] | qs => map (fun q => (snd r, snd q)) qs end) left.
Definition valid_pair (p : O * O) : bool := negb (n_isnan (fst p)) && negb (n_isnan (snd p)).

(** validator.py:18-27, with the frame of the CML afterwards ([cml_copy] is the same
    object).  [cml]: index and column txrx_nf; [time_series]: times and values. *)
Definition calc_stats (cml : frame_index * list O) (time_series : frame_index * list O) : res O * (frame_index * list O) :=
  match strftime (fst cml) with
  | Err e => (Err e, cml)
  | Ok index => (Ok (corr (filter valid_pair (join (combine (labels (fst time_series)) (snd time_series)) (combine (labels index) (snd cml))))), (index, snd cml))
  end.
End M.
