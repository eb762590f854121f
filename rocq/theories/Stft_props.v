(** * Properties C73-C75: STFT wet/dry classification *)
From Coq Require Import List ZArith Bool Lia.
From Verif Require Import Base Num NumF64 NumList Stft_model Stft_spec Stft_proofs Stft_proofs2.
Import ListNotations.
Local Open Scope nat_scope.

Theorem C73_scores_and_flags : forall (O : numops) (S : numsem O) (env : stft_env O) rsl wl thr fd (a b : nat) window Pxx fo P f c,
  uses env rsl wl window Pxx fo P f -> P <> [] -> rect c P -> length f = length P -> c <= length rsl ->
  let n := length rsl in
  let score t := n_sub (band P f n c a b (fun x => n_leb x fd) t) (band P f n c a b (fun x => n_ltb fd x) t) in
  exists r, stft_classification env rsl wl thr fd (Some (Z.of_nat a)) (Some (Z.of_nat b)) None false window Pxx fo = Ok r /\
    length (r_wet r) = n /\ length (r_P_sum_diff r) = n /\
    forall t, t < n -> val S (nget (r_P_sum_diff r) t) = val S (score t) /\ get false (r_wet r) t = n_ltb thr (score t).
Proof. exact @stft_correct. Qed.
Print Assumptions C73_scores_and_flags.

Theorem C73_missing_is_dry : forall (O : numops) (S : numsem O) (env : stft_env O) rsl wl thr fd (a b : nat) window Pxx fo P f c t,
  uses env rsl wl window Pxx fo P f -> P <> [] -> rect c P -> length f = length P -> c <= length rsl ->
  t < length rsl -> t < (length rsl - c) / 2 \/ (length rsl - c) / 2 + c <= t ->
  exists r, stft_classification env rsl wl thr fd (Some (Z.of_nat a)) (Some (Z.of_nat b)) None false window Pxx fo = Ok r /\
    n_isnan (nget (r_P_sum_diff r) t) = true /\ get false (r_wet r) t = false.
Proof. exact @stft_missing. Qed.
Print Assumptions C73_missing_is_dry.

(** negative bounds of the dry period count from the end of the series *)
Theorem C73_negative_bounds : forall (O : numops) (env : stft_env O) rsl wl thr fd i j (a b : nat) window Pxx fo P f c,
  uses env rsl wl window Pxx fo P f -> P <> [] -> rect c P -> c <= length rsl ->
  means_sample (length rsl) i a -> means_sample (length rsl) j b ->
  stft_classification env rsl wl thr fd (Some i) (Some j) None false window Pxx fo =
  stft_classification env rsl wl thr fd (Some (Z.of_nat a)) (Some (Z.of_nat b)) None false window Pxx fo.
Proof. exact @stft_negative. Qed.
Print Assumptions C73_negative_bounds.

(** the sample standard deviation of a window *)
Definition demo_std (l : list F64) : F64 :=
  let m := n_mean l in n_sqrt (n_div (n_sum (map (fun x => n_mul (n_sub x m) (n_sub x m)) l)) (n_ofZ (Z.of_nat (length l) - 1))).
Definition demo_P : list (list F64) := [[#2; #4; #8]; [#1; #1; #4]].
Definition demo_env (find : bool) : stft_env F64 :=
  {| specg := fun rsl N w => if Nat.eqb (Z.to_nat N) (length w) then Ok (demo_P, [#1; #3]) else Err ValueError;
     hamming := fun n => repeat #1 (Z.to_nat n); rstd := demo_std; has_find := find |}.
Definition demo_rsl : list F64 := [#1; #5; #2; #2; #3; #9].
Definition flags (r : res (stft_result F64)) : list bool := match r with Ok r => r_wet r | Err _ => [] end.
Definition scores (r : res (stft_result F64)) : list F64 := match r with Ok r => r_P_sum_diff r | Err _ => [] end.
Definition raised (r : res (stft_result F64)) : option exn := match r with Ok _ => None | Err e => Some e end.
Example C73_case :
  let r := stft_classification (demo_env false) demo_rsl 4 #0 #2 (Some 1%Z) (Some 2%Z) None false None None None in
  flags r = [false; false; true; false; false; false] /\ f_same_list (scores r) [fNaN; #0; #1; #0; fNaN; fNaN] = true.
Proof. vm_compute. auto. Qed.

Example C73_case_negative :
  let r := stft_classification (demo_env false) demo_rsl 4 #0 #2 (Some (-9)%Z) (Some (-4)%Z) None false None None None in
  means_sample 6 (-9) 0 /\ means_sample 6 (-4) 2 /\ flags r = [false; false; true; false; false; false].
Proof. split; [|split]; [unfold means_sample; lia|unfold means_sample; lia|vm_compute; reflexivity]. Qed.

Theorem C74_mirror_always_fails : forall (O : numops) (env : stft_env O) rsl wl thr fd a b d window Pxx fo,
  exists e, stft_classification env rsl wl thr fd a b d true window Pxx fo = Err e.
Proof. exact @stft_mirror_fails. Qed.
Print Assumptions C74_mirror_always_fails.

Theorem C74_mirror_type_error : forall (O : numops) (env : stft_env O) rsl (wl : Z) thr fd a b d window fo P f,
  let even := if Z.even wl then wl else (wl + 1)%Z in
  specg env rsl even (match window with Some w => w | None => hamming env wl end) = Ok (P, f) -> P <> [] ->
  stft_classification env rsl wl thr fd a b d true window None fo = Err TypeError.
Proof. exact @stft_mirror_computed. Qed.
Print Assumptions C74_mirror_type_error.

(** [OtherError] stands for UnboundLocalError here *)
Theorem C74_mirror_supplied : forall (O : numops) (env : stft_env O) rsl wl thr fd a b d window P f, P <> [] ->
  stft_classification env rsl wl thr fd a b d true window (Some P) (Some f) = Err OtherError.
Proof. exact @stft_mirror_supplied. Qed.
Print Assumptions C74_mirror_supplied.

Theorem C74_spectrogram_without_frequencies : forall (O : numops) (env : stft_env O) rsl wl thr fd a b d m window P,
  stft_classification env rsl wl thr fd a b d m window (Some P) None = Err ValueError.
Proof. exact @stft_no_f. Qed.
Print Assumptions C74_spectrogram_without_frequencies.

Theorem C74_spectrogram_too_long : forall (O : numops) (env : stft_env O) rsl wl thr fd a b d window Pxx fo P f c,
  uses env rsl wl window Pxx fo P f -> P <> [] -> rect c P -> length rsl < c ->
  stft_classification env rsl wl thr fd a b d false window Pxx fo = Err ValueError.
Proof. exact @stft_too_long. Qed.
Print Assumptions C74_spectrogram_too_long.

Theorem C74_bad_combination : forall (O : numops) (env : stft_env O) rsl wl thr fd (a b d : option Z) window Pxx fo P f c,
  uses env rsl wl window Pxx fo P f -> P <> [] -> rect c P -> c <= length rsl ->
  ~ (a <> None /\ b <> None /\ d = None) -> ~ (a = None /\ b = None /\ d <> None) ->
  stft_classification env rsl wl thr fd a b d false window Pxx fo = Err AttributeError.
Proof. exact @stft_bad_combination. Qed.
Print Assumptions C74_bad_combination.

Example C74_case : let go a b d m wl P f := raised (stft_classification (demo_env true) demo_rsl wl #0 #2 a b d m None P f) in
  go (Some 1%Z) (Some 2%Z) None true 4%Z None None = Some TypeError /\
  go (Some 1%Z) (Some 2%Z) None true 3%Z None None = Some ValueError /\
  go (Some 1%Z) (Some 2%Z) None true 4%Z (Some demo_P) (Some [#1; #3]) = Some OtherError /\
  go (Some 1%Z) (Some 2%Z) (Some 2%Z) false 4%Z None None = Some AttributeError /\
  go None (Some 2%Z) None false 4%Z None None = Some AttributeError /\
  go (Some 1%Z) (Some 2%Z) None false 4%Z (Some [repeat #1 7]) (Some [#1]) = Some ValueError /\
  go (Some 1%Z) (Some 2%Z) None false 4%Z (Some demo_P) None = Some ValueError.
Proof. vm_compute. repeat split; reflexivity. Qed.

Theorem C75_lowest_std : forall (O : numops) (S : numsem O) (env : stft_env O) rsl (w : nat) a b, has_find env = true ->
  find_lowest_std_dev_period env rsl (Z.of_nat w) = Ok (a, b) ->
  exists k v, b = Z.of_nat k /\ a = (b - Z.of_nat w)%Z /\ window_at w rsl k = Some v /\ n_isnan (rstd env v) = false /\
    forall j u, window_at w rsl j = Some u -> n_isnan (rstd env u) = false ->
      n_leb (rstd env v) (rstd env u) = true /\ (j < k -> n_ltb (rstd env v) (rstd env u) = true).
Proof. exact @find_correct. Qed.
Print Assumptions C75_lowest_std.

Theorem C75_found : forall (O : numops) (S : numsem O) (env : stft_env O) rsl (w : nat), has_find env = true ->
  (exists j u, window_at w rsl j = Some u /\ n_isnan (rstd env u) = false) ->
  exists a b, find_lowest_std_dev_period env rsl (Z.of_nat w) = Ok (a, b).
Proof. exact @find_exists. Qed.
Print Assumptions C75_found.

Theorem C75_no_window : forall (O : numops) (S : numsem O) (env : stft_env O) rsl (w : nat), has_find env = true ->
  (forall j u, window_at w rsl j = Some u -> n_isnan (rstd env u) = true) ->
  find_lowest_std_dev_period env rsl (Z.of_nat w) = Err IndexError.
Proof. exact @find_none. Qed.
Print Assumptions C75_no_window.

Theorem C75_find_removed : forall (O : numops) (env : stft_env O) rsl (w : nat), has_find env = false ->
  find_lowest_std_dev_period env rsl (Z.of_nat w) = Err AttributeError.
Proof. exact @find_removed. Qed.
Print Assumptions C75_find_removed.

Theorem C75_negative_window : forall (O : numops) (env : stft_env O) rsl (w : Z), (w < 0)%Z ->
  find_lowest_std_dev_period env rsl w = Err ValueError.
Proof. exact @find_negative. Qed.
Print Assumptions C75_negative_window.

Theorem C75_slice_shifted_by_one : forall (O : numops) (S : numsem O) (env : stft_env O) rsl (w : nat) a b, has_find env = true -> 0 < w ->
  find_lowest_std_dev_period env rsl (Z.of_nat w) = Ok (a, b) ->
  exists k, b = Z.of_nat k /\ window_at w rsl k <> None /\
   (w <= k -> a = Z.of_nat (k - w) /\ py_slice a b rsl = map (nget rsl) (seq (k - w) w)) /\
   (k + 1 = w -> a = (-1)%Z /\ py_slice a b rsl = []).
Proof. exact @find_slice. Qed.
Print Assumptions C75_slice_shifted_by_one.

Theorem C75_first_window_all_dry : forall (O : numops) (S : numsem O) (env : stft_env O) rsl wl thr fd (w : nat) window Pxx fo P f c b,
  uses env rsl wl window Pxx fo P f -> P <> [] -> rect c P -> length f = length P -> c <= length rsl -> has_find env = true -> 0 < w ->
  find_lowest_std_dev_period env rsl (Z.of_nat w) = Ok ((-1)%Z, b) ->
  exists r, stft_classification env rsl wl thr fd None None (Some (Z.of_nat w)) false window Pxx fo = Ok r /\ length (r_wet r) = length rsl /\
    forall t, t < length rsl -> get false (r_wet r) t = false.
Proof. exact @stft_first_window. Qed.
Print Assumptions C75_first_window_all_dry.

(** the driest window of three is samples 2, 3, 4, the slice 1:4 covers 1, 2, 3 *)
Example C75_case : find_lowest_std_dev_period (demo_env true) demo_rsl 3 = Ok (1, 4)%Z /\
  f_same_list (py_slice 1 4 demo_rsl) [#5; #2; #2] = true /\
  find_lowest_std_dev_period (demo_env true) [#1; #1; #7; #3] 2 = Ok (-1, 1)%Z /\
  find_lowest_std_dev_period (demo_env true) [#1; fNaN; #7] 2 = Err IndexError /\
  find_lowest_std_dev_period (demo_env false) demo_rsl 3 = Err AttributeError.
Proof. vm_compute. repeat split; reflexivity. Qed.
Example C75_case_all_dry :
  let r := stft_classification (demo_env true) [#1; #1; #7; #3; #9; #2] 4 #(-100) #2 None None (Some 2%Z) false None None None in
  flags r = repeat false 6 /\ f_same_list (scores r) (repeat fNaN 6) = true.
Proof. vm_compute. auto. Qed.
