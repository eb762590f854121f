(** * Model of /repo/pycomlink/processing/wet_dry/stft.py

    Oracles (record [stft_env]): [specg rsl NFFT window] is matplotlib's specgram
    with [noverlap = NFFT - 1] and the given sampling frequency (it may raise),
    [hamming] is np.hamming, [rstd] is the standard deviation pandas computes for a
    full window, and [has_find] says whether matplotlib still has [mlab.find]
    (removed in 3.1; requirements.txt pins no version).
    Simplified: sums are taken left to right (numpy may sum a row pairwise);
    printing is left out; two-dimensional arrays are lists of rows. *)
From Coq Require Import List ZArith Bool.
From Verif Require Import Base Num NumList NpOps MinMax_model.
Import ListNotations.
Local Open Scope nat_scope.

(** Python slice [l[s:e]] with integer bounds: negative ones count from the end *)
Definition py_bound (n : nat) (i : Z) : nat := Z.to_nat (Z.min (Z.of_nat n) (if (i <? 0)%Z then Z.max 0 (Z.of_nat n + i) else i)).
Definition py_slice {A} (s e : Z) (l : list A) : list A := slice (py_bound (length l) s) (py_bound (length l) e) l.

Section Stft.
Context {O : numops}.

Record stft_env := { specg : list O -> Z -> list O -> res (list (list O) * list O); hamming : Z -> list O; rstd : list O -> O; has_find : bool }.

(** stft.py:231-235; np.empty refuses negative sizes *)
Definition nans (rows : nat) (cols : Z) : res (list (list O)) :=
  if (cols <? 0)%Z then Err ValueError else Ok (repeat (repeat n_nan (Z.to_nat cols)) rows).

(** [pd.DataFrame(rsl).rolling(w).std()]: NaN where the window of w values is not
    complete or has a NaN (min_periods is w) *)
Definition rolling_std (env : stft_env) (w : nat) (rsl : list O) : list O :=
  map (fun i => if (i + 1 <? w) || existsb n_isnan (slice (i + 1 - w) (i + 1) rsl) then n_nan else rstd env (slice (i + 1 - w) (i + 1) rsl))
    (seq 0 (length rsl)).

(** np.nanmin: NaN if there is no number *)
Definition nanmin (l : list O) : O :=
  match filter (fun x => negb (n_isnan x)) l with [] => n_nan | x :: t => np_fold n_ltb x t end.

(** stft.py:199-223 *)
Definition find_lowest_std_dev_period (env : stft_env) (rsl : list O) (window_length : Z) : res (Z * Z) :=
  if (window_length <? 0)%Z then Err ValueError
  else
    let roll := rolling_std env (Z.to_nat window_length) rsl in
    if negb (has_find env) then Err AttributeError
    else match where_true (map (fun x => n_eqb x (nanmin roll)) roll) with
         | [] => Err IndexError
         | k :: _ => Ok (Z.of_nat k - window_length, Z.of_nat k)%Z
         end.

Record stft_result := { r_wet : list bool; r_P_norm : list (list O); r_P_sum_diff : list O; r_Pxx : list (list O); r_P_dry_mean : list O; r_f : list O }.

(** [np.mean(P[idx], axis=0)] for an array with [cols] columns *)
Definition rows_mean (P : list (list O)) (cols : nat) (idx : list nat) : res (list O) :=
  if existsb (fun i => length P <=? i) idx then Err IndexError
  else Ok (map (fun t => n_mean (map (fun i => nget (get [] P i) t) idx)) (seq 0 cols)).

(** stft.py:95-120: the spectrogram, its frequencies and the local NFFT (None if
    unbound) *)
Definition spectrogram (env : stft_env) rsl (window_length : Z) (mirror : bool) (window : option (list O)) (Pxx : option (list (list O))) (f : option (list O))
  : res (list (list O) * list O * option Z) :=
  match Pxx with
  | None =>
      let NFFT := if mirror then if (window_length mod 2 =? 0)%Z then window_length else (window_length + 1)%Z else window_length in
      let window := match window with None => hamming env window_length | Some w => w end in
      do p <- specg env rsl NFFT window; Ok (fst p, snd p, Some NFFT)
  | Some P => match f with Some f => Ok (P, f, None) | None => Err ValueError end
  end.

(** stft.py:122-150.  With mirror the first thing computed is
    [range((len(rsl)-1) - (NFFT/2 - 1), len(rsl))], whose first argument is a float
    (TypeError); if Pxx was supplied NFFT is unbound (UnboundLocalError). *)
Definition extend (rsl : list O) (mirror : bool) (P : list (list O)) (NFFT : option Z) : res (list (list O)) :=
  match P with
  | [] => Err IndexError
  | row :: _ =>
      let N_diff := (Z.of_nat (length rsl) - Z.of_nat (length row))%Z in
      let N_missing_start := (N_diff / 2)%Z in
      if mirror then match NFFT with Some _ => Err TypeError | None => Err OtherError end
      else
        let N_missing_end := (N_diff - N_missing_start)%Z in
        do a <- nans (length P) N_missing_start;
        do b <- nans (length P) N_missing_end;
        Ok (map2 (@app O) (map2 (@app O) a P) b)
  end.

(** stft.py:152-166 *)
Definition dry_period (env : stft_env) rsl (t_dry_start t_dry_stop dry_length : option Z) : res (Z * Z) :=
  match t_dry_start, t_dry_stop, dry_length with
  | None, None, Some w => find_lowest_std_dev_period env rsl w
  | Some a, Some b, None => Ok (a, b)
  | _, _, _ => Err AttributeError
  end.

(** stft.py:168-196 *)
Definition classify (Pxx_extended : list (list O)) (f : list O) (t_dry_start t_dry_stop : Z) (threshold f_divide : O) : res stft_result :=
  let cols := length (get [] Pxx_extended 0) in
  let P_dry_mean := map (fun row => nanmean (py_slice t_dry_start t_dry_stop row)) Pxx_extended in
  let P_norm := map2 (fun row m => map (fun x => n_div x m) row) Pxx_extended P_dry_mean in
  let i_f_divide_low := [where_true (map (fun x => n_leb x f_divide) f)] in
  let i_f_divide_high := [where_true (map (fun x => n_ltb f_divide x) f)] in
  let N_f_divide_low := n_ofZ (Z.of_nat (length i_f_divide_low)) in
  let N_f_divide_high := n_ofZ (Z.of_nat (length i_f_divide_high)) in
  do P_norm_low <- rows_mean P_norm cols (get [] i_f_divide_low 0);
  do P_norm_high <- rows_mean P_norm cols (get [] i_f_divide_high 0);
  let P_sum_diff := map2 (fun l h => n_sub (n_div l N_f_divide_low) (n_div h N_f_divide_high)) P_norm_low P_norm_high in
  let wet := map (fun x => if n_isnan x then false else n_ltb threshold x) P_sum_diff in
  Ok {| r_wet := wet; r_P_norm := P_norm; r_P_sum_diff := P_sum_diff; r_Pxx := Pxx_extended; r_P_dry_mean := P_dry_mean; r_f := f |}.

(** stft.py:23-196 *)
Definition stft_classification (env : stft_env) (rsl : list O) (window_length : Z) (threshold f_divide : O)
    (t_dry_start t_dry_stop dry_length : option Z) (mirror : bool) (window : option (list O))
    (Pxx : option (list (list O))) (f : option (list O)) : res stft_result :=
  do s <- spectrogram env rsl window_length mirror window Pxx f;
  do Pxx_extended <- extend rsl mirror (fst (fst s)) (snd s);
  do d <- dry_period env rsl t_dry_start t_dry_stop dry_length;
  classify Pxx_extended (snd (fst s)) (fst d) (snd d) threshold f_divide.
End Stft.
Arguments stft_env : clear implicits.
Arguments stft_result : clear implicits.
