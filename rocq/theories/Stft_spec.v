(** * What the STFT classification should compute *)
From Coq Require Import List ZArith Bool.
From Verif Require Import Base Num NumList Stft_model.
Import ListNotations.
Local Open Scope nat_scope.

Section Spec.
Context {O : numops}.

(** a matrix with equally long rows *)
(** the sample that a Python slice bound [i] means in a series of [n] *)
Definition means_sample (n : nat) (i : Z) (a : nat) : Prop :=
  ((0 <= i -> a = Z.to_nat i) /\ (i < 0 -> 0 <= Z.of_nat n + i -> Z.of_nat a = Z.of_nat n + i) /\ (Z.of_nat n + i < 0 -> a = 0%nat))%Z.

Definition rect (c : nat) (P : list (list O)) : Prop := Forall (fun row => length row = c) P.

(** power of row [k] at sample [t] of a series of [n]: column [t - s] of a
    spectrogram of [c] columns centred in the series (one more missing value at the
    end if n - c is odd); [None] if there is no spectrum for that sample *)
Definition centred (n c t : nat) : option nat :=
  let s := (n - c) / 2 in if (s <=? t) && (t <? s + c) then Some (t - s) else None.
Definition power (P : list (list O)) (n c k t : nat) : O :=
  match centred n c t with Some j => nget (get [] P k) j | None => n_nan end.

(** mean of the numbers (non-NaN values) of row [k] at samples a <= t < b *)
Definition dry_level (P : list (list O)) (n c a b k : nat) : O :=
  n_mean (filter (fun x => negb (n_isnan x)) (map (power P n c k) (seq a (b - a)))).

(** mean of the normalised power over the rows whose frequency satisfies [sel] *)
Definition band (P : list (list O)) (f : list O) (n c a b : nat) (sel : O -> bool) (t : nat) : O :=
  n_mean (map (fun k => n_div (power P n c k t) (dry_level P n c a b k)) (filter (fun k => sel (nget f k)) (seq 0 (length f)))).

(** the window of [w] samples ending with sample [k], if it is complete and has no
    missing value *)
Definition window_at (w : nat) (x : list O) (k : nat) : option (list O) :=
  let v := map (nget x) (seq (k + 1 - w) w) in
  if (w <=? k + 1) && (k <? length x) && forallb (fun y => negb (n_isnan y)) v then Some v else None.

(** the spectrogram used by a call *)
Definition uses (env : stft_env O) rsl (wl : Z) (window : option (list O)) (Pxx : option (list (list O))) (fo : option (list O)) P f : Prop :=
  (Pxx = Some P /\ fo = Some f) \/
  (Pxx = None /\ specg env rsl wl (match window with Some w => w | None => hamming env wl end) = Ok (P, f)).
End Spec.
