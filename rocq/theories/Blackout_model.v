(** * Model of /repo/pycomlink/processing/blackout_gap_detection.py *)
From Coq Require Import List ZArith Bool.
From Verif Require Import Base Num NumList.
Import ListNotations.

(** [np.roll(l, shift)] on a 1-D array: [result[i] = l[(i - shift) mod n]]. *)
Definition np_roll (shift : Z) (l : list bool) : list bool :=
  map (fun i => get false l (Z.to_nat ((Z.of_nat i - shift) mod Z.of_nat (length l))))
      (seq 0 (length l)).

Section Blackout.
Context {O : numops}.

(** blackout_gap_detection.py:6-33 [get_blackout_start_and_end] on a 1-D numpy
    array (the decorator is modelled in Wrapper_model.v). *)
Definition get_blackout_start_and_end (rsl : list O) (rsl_threshold : O) : list bool * list bool :=
  let rsl_below_threshold := map (fun x => n_ltb x rsl_threshold) rsl in
  let rsl_nan := map n_isnan rsl in
  let gap_start := map2 andb (np_roll (-1) rsl_nan) rsl_below_threshold in
  let gap_end := map2 andb (np_roll 1 rsl_nan) rsl_below_threshold in
  (gap_start, gap_end).

(** blackout_gap_detection.py:58-66, loop body; state = (mask, in_blackout_gap) *)
Definition mask_body (rsl : list O) (gap_start gap_end : list bool) (i : nat)
    (st : list bool * bool) : list bool * bool :=
  let '(mask, in_gap) := st in
  let in_gap := if get false gap_start i then true else in_gap in
  let in_gap := if negb (get false gap_start i) && negb (n_isnan (nget rsl i)) then false else in_gap in
  let in_gap := if get false gap_end i then false else in_gap in
  let mask := if in_gap && n_isnan (nget rsl i) then upd i true mask else mask in
  (mask, in_gap).

(** blackout_gap_detection.py:36-67 [created_blackout_gap_mask_from_start_end_markers].
    Marker arrays shorter than [rsl] are read out of bounds by numba
    (undefined): [Err OtherError]. *)
Definition created_blackout_gap_mask (rsl : list O) (gap_start gap_end : list bool) : res (list bool) :=
  if Nat.ltb (length gap_start) (length rsl) || Nat.ltb (length gap_end) (length rsl) then Err OtherError
  else
    Ok (fst (for_range 0 (length rsl) (mask_body rsl gap_start gap_end)
               (repeat false (length rsl), false))).

(** docs/notebooks/Blackout gap detection examples.ipynb:78-89, the documented
    combination of a forward and a backward scan. *)
Definition notebook_mask (rsl : list O) (rsl_threshold : O) : res (list bool) :=
  let '(gap_start, gap_end) := get_blackout_start_and_end rsl rsl_threshold in
  do mask <- created_blackout_gap_mask rsl gap_start gap_end;
  do mask_reverse <- created_blackout_gap_mask (rev rsl) (rev gap_end) (rev gap_start);
  Ok (map2 orb mask (rev mask_reverse)).
End Blackout.
