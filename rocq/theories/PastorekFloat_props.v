(** * Property C17, continued: the wet antenna attenuation of an observed attenuation in binary64 *)
From Coq Require Import List ZArith Bool String Lia Reals Lra.
From Verif Require Import Base Num NumF64 NumList Libm Libm64 RealSpec KR_model KR_spec Chain_spec HaversineFloat_spec HaversineFloat_proofs Pastorek_model WaaFloat_spec
  Chain_proofs WaaFloat_proofs PastorekFloat_spec PastorekFloat_proofs.
Import ListNotations.
Local Open Scope nat_scope.
Local Notation length := List.length.

(** With powers and exponentials that are monotone, observations below 0 or
    above a bound of at least 10^3 dB are rejected; any other array is
    answered, and up to 2^-39 dB each answer is between 0 and the smaller of
    the observation and A_max, and never decreases in the observation. *)
Theorem C17_in_float :
  forall (L : libm F64) (cubic : list F64 -> list F64 -> F64 -> F64) (f l A_max zeta d a b : F64) (pol : string) (M : R),
  pow_sane L -> pow_mono L -> pow_zero L -> exp_sane L -> ten_sane L ->
  a_b cubic [n_div f (n_ofZ (10 ^ 9))] (PolStr pol) "ITU_2005" = Ok ([a], [b]) ->
  positive (n_div (n_ofZ 1) b) -> positive (n_mul a l) -> finite (n_mul a l) ->
  is_num A_max M -> (0 <= M <= 1024)%R -> nonneg zeta -> positive d -> finite d ->
  exists top : F64, n_leb (m_pow L (n_ofZ 10) (n_ofZ 3)) top = true /\ forall A_obs : list F64,
  let run := waa_pastorek_2021_from_A_obs L cubic A_obs f pol l A_max zeta d in
  ((exists x, In x A_obs /\ (n_ltb x (n_ofZ 0) = true \/ n_ltb top x = true)) -> run = Err ValueError) /\
  ((forall x, In x A_obs -> missing x \/ n_leb (n_ofZ 0) x = true /\ n_leb x top = true) ->
   exists out, run = Ok out /\ length out = length A_obs /\
   (forall i, i < length A_obs -> missing (get n_nan A_obs i) -> missing (get n_nan out i)) /\
   (forall i x, i < length A_obs -> is_num (get n_nan A_obs i) x ->
      exists y, is_num (get n_nan out i) y /\ (0 <= y)%R /\ (y <= M + tiny)%R /\ (y <= x + tiny)%R /\ (x = 0%R -> y = 0%R)) /\
   (forall i j x x' y y', i < length A_obs -> j < length A_obs ->
      is_num (get n_nan A_obs i) x -> is_num (get n_nan A_obs j) x' -> is_num (get n_nan out i) y -> is_num (get n_nan out j) y' ->
      (x <= x')%R -> (y <= y' + tiny)%R)).
Proof. exact from_A_obs_float. Qed.
Print Assumptions C17_in_float.

Theorem C17_library_laws_satisfiable : pow_sane F64cr /\ pow_mono F64cr /\ pow_zero F64cr /\ exp_sane F64cr /\ ten_sane F64cr.
Proof. exact (conj F64cr_pow_sane (conj F64cr_pow_mono (conj F64cr_pow_zero (conj F64cr_exp_sane F64cr_ten_sane)))). Qed.
Print Assumptions C17_library_laws_satisfiable.

(** correctly rounded functions and coefficients a = b = 1: 0, a gap and 5 dB
    are answered, the last with at most 5 dB and a rounding error; -1 is not *)
Example C17_case_float :
  let run A := waa_pastorek_2021_from_A_obs F64cr (fun _ _ _ => #1) A (n_mul #20 (n_ofZ (10 ^ 9))) "V" #2 #14 #1 #1 in
  run [#0; #(-1)] = Err ValueError /\
  exists out y, run [#0; fNaN; #5] = Ok out /\ is_num (get n_nan out 0) 0 /\ missing (get n_nan out 1) /\ is_num (get n_nan out 2) y /\ (0 <= y <= 5 + tiny)%R.
Proof.
  intros run.
  assert (N : forall z, (Z.abs z <= 2 ^ 53)%Z -> is_num (n_ofZ z) (IZR z)) by exact num_ofZ.
  destruct (C17_in_float F64cr (fun _ _ _ => #1) (n_mul #20 (n_ofZ (10 ^ 9))) #2 #14 #1 #1 #1 #1 "V" 14) as (top & T & H).
  1-5: apply C17_library_laws_satisfiable.
  - reflexivity.
  - vm_compute; reflexivity.
  - vm_compute; reflexivity.
  - split; vm_compute; reflexivity.
  - apply N; lia.
  - lra.
  - vm_compute; reflexivity.
  - vm_compute; reflexivity.
  - split; vm_compute; reflexivity.
  - assert (T5 : n_leb #5 top = true).
    { exact (leb_trans F64sem _ (m_pow F64cr (n_ofZ 10) (n_ofZ 3)) _ five_below_thousand T). }
    split.
    + destruct (H [#0; #(-1)]) as [E _]. apply E. exists #(-1). split; [simpl; auto|]. left. vm_compute; reflexivity.
    + destruct (H [#0; fNaN; #5]) as [_ E]. destruct E as (out & R & LO & E1 & E2 & E3).
      { intros x [<-|[<-|[<-|[]]]].
        - right. split; [vm_compute; reflexivity|]. apply (leb_trans F64sem _ #5 _); [vm_compute; reflexivity|exact T5].
        - left. vm_compute; reflexivity.
        - right. split; [vm_compute; reflexivity|exact T5]. }
      destruct (E2 0 0%R) as (y0 & Y0 & _ & _ & _ & Z0); [simpl; lia|apply (N 0%Z); lia|]. rewrite Z0 in Y0 by reflexivity.
      destruct (E2 2 5%R) as (y & Y & B1 & _ & B2 & _); [simpl; lia|apply (N 5%Z); lia|].
      exists out, y. split; [exact R|]. split; [exact Y0|]. split; [apply E1; [simpl; lia|vm_compute; reflexivity]|]. split; [exact Y|lra].
Qed.
