(** * Vocabulary for the k-R relation *)
From Coq Require Import List ZArith Bool String Reals.
From Verif Require Import Base Num RealSpec Spline_spec Itu_table KR_model.
Import ListNotations.

(** the accepted spellings *)
Definition horizontal (s : string) : Prop := In s ["h"; "H"; "horizontal"; "Horizontal"]%string.
Definition vertical (s : string) : Prop := In s ["v"; "V"; "vertical"; "Vertical"]%string.

(** the table an approximation name stands for *)
Definition known_table (ap : string) : option (list (list (Z * nat))) :=
  if String.eqb ap "ITU_2003" then Some ITU_table_2003
  else if String.eqb ap "ITU_2005" then Some ITU_table_2005 else None.

Section Spec.
Context {O : numops}.
(** one polarisation per frequency: a str counts for all of them *)
Definition pols (f : list O) (pol : pol_arg) : list string :=
  match pol with PolStr s => repeat s (List.length f) | PolArr l => l end.
(** neither below 1 nor above 100 GHz *)
Definition in_range (f : O) : Prop := n_ltb f (n_ofZ 1) = false /\ n_ltb (n_ofZ 100) f = false.
Definition positive (x : O) : Prop := n_ltb (n_ofZ 0) x = true.
Definition nonneg (x : O) : Prop := n_leb (n_ofZ 0) x = true.
Definition finite (x : O) : Prop := n_isnan x = false /\ n_isinf x = false.
Definition missing (x : O) : Prop := n_isnan x = true.
End Spec.

(** attenuation in dB of a link of length [l] km under rain rate [r] mm/h *)
Definition attenuation (a b l r : R) : R :=
  (if Req_EM_T r 0 then 0 else a * Rpower r b * l)%R.

(** The interpolator computes not-a-knot splines in exact arithmetic. *)
Definition exact_cubic (cubic : list XR -> list XR -> XR -> XR) : Prop :=
  forall xs ys : list R, 4 <= List.length xs -> List.length ys = List.length xs ->
  (forall i, i + 1 < List.length xs -> (rget xs i < rget xs (i + 1))%R) ->
  exists s, notaknot_spline xs ys s /\
    forall t, (rget xs 0 <= t <= rget xs (List.length xs - 1))%R ->
      cubic (ofR xs) (ofR ys) (XFin t : XR) = XFin (s t).

(** the decimal [m * 10^-e] *)
Definition dec (p : Z * nat) : R := (IZR (fst p) / IZR (10 ^ Z.of_nat (snd p)))%R.
(** entry [j] of row [k] of a table *)
Definition entry (t : list (list (Z * nat))) (k j : nat) : R := dec (get (0%Z, 0) (get [] t k) j).
