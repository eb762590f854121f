(** * Property C20 in binary64: the retrieved rain rate is the true one up to a bounded error *)
From Coq Require Import Reals Lra Lia ZArith Bool List String.
From Verif Require Import Base Num NumF64 NumList Libm Libm64 Ulp64 KR_model KR_spec HaversineFloat_spec HaversineFloat_proofs RainFloat_spec RainFloat_proofs.
Import ListNotations.
Local Open Scope R_scope.

(** If each attenuation is that of a rain rate, with a relative error of at most
    [d], the retrieved rain rate has a relative error of at most [d / b] (and
    ten percent of that), the error of the power function and 2^-48; it is zero
    if the true rate is below the threshold [R_min] by more than that, and is
    not set to zero if it is above by more than that.  No rain gives zero. *)
Theorem C20_float_inverts_power_law :
  forall (L : libm F64) cubic e a b l m va vb vl vm A Rs d ap, pow_accurate L e -> 0 <= e <= / 1000 ->
  is_num a va -> is_num b vb -> is_num l vl -> is_num m vm -> / 2 ^ 60 <= va <= 2 ^ 60 -> / 2 ^ 60 <= vl <= 2 ^ 60 -> / 2 <= vb <= 2 -> 0 <= d <= / 100 ->
  Forall2 (caused_by d va vb vl) Rs A ->
  exists rain, calc_R_from_A L cubic A l None None (Some (CScalar a)) (Some (CScalar b)) ap m = Ok rain /\
  Forall2 (fun r x => retrieved ((e + / 2 ^ 48 + 11 / 10 * d / vb) * r) vm r x) Rs rain.
Proof. exact calc_close. Qed.
Print Assumptions C20_float_inverts_power_law.

(** the law holds for a correctly rounded power function *)
Theorem C20_accuracy_satisfiable : pow_accurate F64cr (/ 2 ^ 53).
Proof. replace (/ 2 ^ 53) with u64; [exact F64cr_pow_accurate|]. rewrite u64_val. change (2 ^ 53)%Z with (2 ^ Z.of_nat 53)%Z. rewrite <- pow_IZR. reflexivity. Qed.
Print Assumptions C20_accuracy_satisfiable.

(** coefficients a = 16, b = 1, two kilometres: 0 dB, 96 dB and 97 dB for 0, 3 and 3 mm/h *)
Example C20_case_float : Forall2 (caused_by (/ 90) 16 1 2) [0; 3; 3] [n_ofZ 0; n_ofZ 96; n_ofZ 97].
Proof.
  assert (P : Rpower 3 1 = 3) by (apply Rpower_1; lra). assert (Q : / 2 ^ 20 <= 3 <= 2 ^ 20) by (simpl; lra).
  constructor; [exists 0; split; [apply (num_ofZ 0); lia|left; lra]|]. constructor; [exists 96; split; [apply (num_ofZ 96); lia|right; split; [exact Q|]]|constructor; [|constructor]].
  - rewrite P. replace (96 - 16 * 3 * 2) with 0 by ring. rewrite Rabs_R0. lra.
  - exists 97. split; [apply (num_ofZ 97); lia|right]. split; [exact Q|]. rewrite P. rewrite Rabs_pos_eq; lra.
Qed.
