(** * Vocabulary for the STFT classification on matplotlib's spectrogram *)
From Coq Require Import List ZArith Bool Reals.
From Verif Require Import Base Num NumList RealSpec Stft_model.
Import ListNotations.

(** a reading is missing or a number *)
Definition reading (x : XR) : Prop := x = (n_nan : XR) \/ exists r, x = XFin r.

(** a window function of the right length that is not zero everywhere, or the
    default one *)
Definition usable (wl : Z) (window : option (list XR)) : Prop :=
  match window with
  | None => True
  | Some l => exists w, l = ofR w /\ Z.of_nat (length w) = wl /\ exists v, In v w /\ v <> 0%R
  end.

(** amplified by [c], raised by [d] *)
Definition amplified (c : R) (l : list XR) : list XR := map (fun x => n_mul (XFin c : XR) x) l.
Definition raised_by (d : R) (l : list XR) : list XR := map (fun x => n_add x (XFin d : XR)) l.

(** both calls raise the same exception, or both return the same flags, scores and
    normalised spectrogram *)
Definition same_classification (m m' : res (stft_result XR)) : Prop :=
  match m, m' with
  | Ok r, Ok r' => r_wet r' = r_wet r /\ r_P_sum_diff r' = r_P_sum_diff r /\ r_P_norm r' = r_P_norm r
  | Err e, Err e' => e' = e
  | _, _ => False
  end.

(** sample [i] is in the window of [N] samples centred (for even [N]: half a sample
    late) at sample [t] *)
Definition in_window (N t i : nat) : Prop := t <= i + (N - 1) / 2 /\ i < t + N - (N - 1) / 2.

(** a window function of [N] values, or the default one *)
Definition fits (N : nat) (window : option (list XR)) : Prop :=
  match window with None => True | Some l => length l = N end.
