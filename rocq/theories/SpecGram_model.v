(** * The library calls of the STFT classification, in exact arithmetic

    Fills the oracles of Stft_model.v.  The calls are stft.py:107-113 and
    stft.py:219 of /repo/pycomlink/processing/wet_dry; what they compute is
    matplotlib's lib/matplotlib/mlab.py, functions [specgram] and
    [_spectral_helper], with the default arguments (mode psd, one sided, no
    detrending, scaled by the sampling frequency, [pad_to = NFFT]), numpy's
    [hamming] and pandas' rolling [std].  None of these libraries is part of
    /repo.  The fast Fourier transform is replaced by the Fourier sum it
    evaluates; rounding is not modelled. *)
From Coq Require Import List ZArith Bool Reals.
From Verif Require Import Base Num NumList NpOps Stft_model.
Import ListNotations.
Local Open Scope nat_scope.

(** real ([trig] cosine) or, up to its sign, imaginary part ([trig] sine) of
    coefficient [k] of [np.fft.fft] of [N] values *)
Definition fourier (trig : R -> R) (N : nat) (v : list XR) (k : nat) : XR :=
  n_sum (map (fun j => n_mul (nget v j) (XFin (trig (2 * PI * INR k * INR j / INR N))%R : XR)) (seq 0 N)).

(** rows multiplied by 2 in a one-sided spectrum: all but frequency 0 and, for an
    even number of samples, the last *)
Definition doubled (N k : nat) : bool := negb (k =? 0) && negb (Nat.even N && (k =? N / 2)).

(** stft.py:111-113: power of one windowed segment at row [k] *)
Definition psd (Fs : R) (window v : list XR) (N k : nat) : XR :=
  let tapered := map2 n_mul v window in
  let re := fourier cos N tapered k in
  let im := fourier sin N tapered k in
  let p := n_add (n_mul re re) (n_mul im im) in
  let p := if doubled N k then n_mul p (n_ofZ 2) else p in
  n_div (n_div p (XFin Fs : XR)) (n_sum (map (fun w => n_mul w w) window)).

(** stft.py:111-113 [specg(rsl, NFFT=NFFT, Fs=f_sampling, noverlap=NFFT - 1,
    window=window)]: a series shorter than [NFFT] is filled up with zeros; a window
    of another length and a window length below 1 raise ValueError. *)
Definition mpl_specgram (Fs : R) (x : list XR) (NFFT : Z) (window : list XR) : res (list (list XR) * list XR) :=
  if (NFFT <=? 0)%Z then Err ValueError
  else
    let N := Z.to_nat NFFT in
    if negb (length window =? N) then Err ValueError
    else
      let x := x ++ repeat zero (N - length x) in
      Ok (map (fun k => map (fun i => psd Fs window (slice i (i + N) x) N k) (seq 0 (length x - N + 1))) (seq 0 (N / 2 + 1)),
          map (fun k => (XFin (INR k * Fs / INR N)%R : XR)) (seq 0 (N / 2 + 1))).

(** stft.py:108 [np.hamming(window_length)] *)
Definition hamming_at (M n : nat) : R :=
  if M =? 1 then 1%R else (0.54 + 0.46 * cos (PI * (1 - INR M + 2 * INR n) / (INR M - 1)))%R.
Definition np_hamming (M : Z) : list XR := map (fun n => (XFin (hamming_at (Z.to_nat M) n) : XR)) (seq 0 (Z.to_nat M)).

(** stft.py:219 [.std()] of one full window: squared deviations divided by the
    number of values less 1; NaN for fewer than two values *)
Definition sample_std (l : list XR) : XR :=
  if length l <=? 1 then n_nan
  else
    let m := n_mean l in
    n_sqrt (n_div (n_sum (map (fun x => n_mul (n_sub x m) (n_sub x m)) l)) (n_ofZ (Z.of_nat (length l) - 1))).

(** stft.py:17-20 and 219: the libraries as the classification sees them *)
Definition mpl_env (Fs : R) (find : bool) : stft_env XR :=
  {| specg := mpl_specgram Fs; hamming := np_hamming; rstd := sample_std; has_find := find |}.
