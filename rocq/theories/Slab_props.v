(** * Property C93: the Leijnse formula is the loss of transmission caused by the water film *)
From Coq Require Import Reals Lra.
From Verif Require Import Base Leijnse_model Leijnse_proofs Slab_spec Slab_proofs.
Local Open Scope R_scope.

Theorem C93_leijnse_is_transmission_loss : forall r f T gamma delta na la,
  0 <= f -> 0 < T <= 339 -> 0 <= gamma -> 0 < fst na -> 0 <= snd na -> 0 <= la ->
  let dry := transmitted (dry_cover (wave_number f) na la) in
  let wet := transmitted (wet_cover (wave_number f) (csqrt (eps_water f T)) (film gamma delta r) na la) in
  0 < dry <= 1 /\ 0 < wet <= 1 /\
  waa_formula r f T gamma delta na la = decibel (dry / wet) /\
  decibel dry <= waa_formula r f T gamma delta na la.
Proof. exact leijnse_physics. Qed.
Print Assumptions C93_leijnse_is_transmission_loss.

(** a quarter wave plate of index 2 transmits 16/25 of the power *)
Example C93_case : transmitted (dry_cover (PI / 2) (2, 0) (1 / 2)) = 16 / 25.
Proof.
  assert (D : nrm (cmul (cmul (cmul (cR 2) (cR 1)) (cmul (cR 2) (2, 0))) (m11 (dry_cover (PI / 2) (2, 0) (1 / 2)))) = 100).
  { rewrite dry_sum by (apply cnz_re; simpl; lra).
    replace (cmul (cmul (copp (cj (PI / 2))) (2, 0)) (cR (1 / 2))) with (0, - (PI / 2)) by (apply cplx_eq; simpl; field).
    replace (cmul (cmul (cj (PI / 2)) (2, 0)) (cR (1 / 2))) with (0, PI / 2) by (apply cplx_eq; simpl; field).
    unfold cexp, nrm. cbn [fst snd cadd cmul csub copp cR]. rewrite sin_neg, cos_neg, exp_0, cos_PI2, sin_PI2. lra. }
  rewrite nrm_mul in D. unfold transmitted. fold (nrm (m11 (dry_cover (PI / 2) (2, 0) (1 / 2)))).
  set (x := nrm (m11 (dry_cover (PI / 2) (2, 0) (1 / 2)))) in *. clearbody x.
  replace (nrm (cmul (cmul (cR 2) (cR 1)) (cmul (cR 2) (2, 0)))) with 64 in D by (unfold nrm; simpl; lra).
  replace x with (25 / 16) by lra. field.
Qed.

(** the default antenna cover at 20 GHz lets at most the whole power through,
    with any water film *)
Example C93_case_default : forall r,
  transmitted (wet_cover (wave_number (20 * 10 ^ 9)) (csqrt (eps_water (20 * 10 ^ 9) 293)) (film 2.06e-5 0.24 r) (1.73, 0.014) 0.001) <= 1.
Proof.
  intros r. destruct (leijnse_physics r (20 * 10 ^ 9) 293 2.06e-5 0.24 (1.73, 0.014) 0.001) as (_ & (_ & H) & _);
    cbn [fst snd]; lra.
Qed.
