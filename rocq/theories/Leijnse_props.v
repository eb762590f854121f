(** * Properties C83-C85: the Leijnse formula and the permittivity of water *)
From Coq Require Import List ZArith Bool Lia Reals Lra.
From Verif Require Import Base Leijnse_model Leijnse_spec Leijnse_proofs.
Import ListNotations.
Local Open Scope R_scope.

Theorem C83_leijnse_scalar_rain_raises : forall r f T gamma delta n l,
  waa_leijnse_2008 (AScalar r) (AScalar f) T gamma delta n l = Err TypeError.
Proof. exact leijnse_scalar. Qed.
Print Assumptions C83_leijnse_scalar_rain_raises.

(** Two arrays: they must have the same length, unless the frequencies are one
    element.  One rain rate for several frequencies fails at the mask. *)
Theorem C83_leijnse_shapes : forall Rr f T gamma delta n l, length f <> 1%nat -> length Rr <> length f ->
  waa_leijnse_2008 (AArray Rr) (AArray f) T gamma delta n l = Err (if Nat.eqb (length Rr) 1 then IndexError else ValueError).
Proof.
  intros Rr f T gamma delta n l Hf H. unfold waa_leijnse_2008. apply Nat.eqb_neq in H.
  destruct f as [|a [|b f]]; [| cbn in Hf; congruence |]; rewrite H; destruct (Nat.eqb (length Rr) 1); reflexivity.
Qed.
Print Assumptions C83_leijnse_shapes.

Example C83_case_shapes : forall T gamma delta n l,
  waa_leijnse_2008 (AArray [1; 2; 3]) (AArray [10 ^ 9; 2 * 10 ^ 9]) T gamma delta n l = Err ValueError /\
  waa_leijnse_2008 (AArray [1]) (AArray [10 ^ 9; 2 * 10 ^ 9]) T gamma delta n l = Err IndexError.
Proof. intros. split; reflexivity. Qed.

Theorem C84_leijnse_zero_rain : forall Rr f T gamma delta n l,
  0 <= f -> 0 < T <= 339 -> 0 < fst n -> 0 <= snd n -> 0 <= l ->
  exists out, waa_leijnse_2008 (AArray Rr) (AScalar f) T gamma delta n l = Ok out /\ length out = length Rr /\
  forall i, (i < length Rr)%nat ->
    get 0 out i = waa_formula (get 0 Rr i) f T gamma delta n l /\ (get 0 Rr i = 0 -> get 0 out i = 0).
Proof. exact leijnse_zero_rain. Qed.
Print Assumptions C84_leijnse_zero_rain.

(** the default parameters at 20 GHz: the formula itself is 0 at zero rain *)
Example C84_case : forall gamma delta, waa_formula 0 (20 * 10 ^ 9) 293 gamma delta (1.73, 0.014) 0.001 = 0.
Proof. intros. apply formula_zero. apply den_nz; simpl; lra. Qed.

Theorem C85_water_permittivity : forall T, 0 < T <= 339 ->
  eps_water 0 T = (static_permittivity T, 0) /\
  (forall f, optical_permittivity T <= fst (eps_water f T) <= static_permittivity T) /\
  (forall f f', 0 <= f -> f < f' -> fst (eps_water f' T) < fst (eps_water f T)) /\
  (forall f, 0 < f -> 0 < snd (eps_water f T)) /\
  0 < static_permittivity T.
Proof. exact permittivity. Qed.
Print Assumptions C85_water_permittivity.

(** at 300 K the static value is 77.66 *)
Example C85_case : eps_water 0 300 = (77.66, 0).
Proof.
  destruct (permittivity 300) as [E _]; [lra|]. rewrite E. unfold static_permittivity. f_equal. field.
Qed.

Theorem C85_double_debye : forall f T, 0 < T ->
  eps_water f T = (debye_real T (f / 10 ^ 9), debye_loss T (f / 10 ^ 9)).
Proof. exact double_debye. Qed.
Print Assumptions C85_double_debye.

(** the loss vanishes at frequency 0; at 300 K the lower relaxation frequency
    is 20.2 GHz *)
Example C85_case_loss : debye_loss 300 0 = 0 /\ relaxation 300 = 20.2.
Proof. unfold debye_loss, relaxation. split; [unfold Rdiv; ring|]. replace (300 / 300 - 1) with 0 by field. simpl. ring. Qed.
