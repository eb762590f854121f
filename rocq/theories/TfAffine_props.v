(** * Property C99: units of the inputs, and what a prediction depends on *)
From Coq Require Import List ZArith Bool String Reals.
From Verif Require Import Base Num NumF64 NumList RealSpec RealStat TfInfer_model TfInfer_spec TfAffine_spec TfAffine_proofs.
Import ListNotations.
Local Open Scope nat_scope.
Local Notation length := List.length.

Theorem C99_units_do_not_matter : forall (a b : string -> R) net (ds : dataset XR) vars seq_len sel,
  NoDup (ds_ids ds) -> 1 <= seq_len -> has_vars ds vars -> vars <> [] -> (forall v, In v vars -> 0 < a v)%R ->
  (forall X, all_windows ds vars seq_len sel (ofR3 X) -> forall k, k < length vars ->
     let v := get EmptyString vars k in
     ~ nearly_constant (featR k X) /\ ~ nearly_constant (map (fun x => a v * x + b v)%R (featR k X))) ->
  wet_dry_1d_cnn net (change_units a b ds) vars seq_len sel = wet_dry_1d_cnn net ds vars seq_len sel.
Proof. exact cnn_units. Qed.
Print Assumptions C99_units_do_not_matter.

(** one link with the values 0, 1, doubled and shifted by 3 *)
Example C99_case : forall net,
  wet_dry_1d_cnn net (change_units (fun _ => 2%R) (fun _ => 3%R) two_values) ["TL"%string] 1 None = wet_dry_1d_cnn net two_values ["TL"%string] 1 None.
Proof.
  intros net. apply C99_units_do_not_matter.
  - repeat constructor. intros [].
  - repeat constructor.
  - intros v [<-|[]]. left. reflexivity.
  - discriminate.
  - intros. now apply IZR_lt.
  - exact two_values_vary.
Qed.

(** the prediction for link a depends on the values of link b ... *)
Theorem C99_depends_on_other_links : exists net (l k k' : list F64) m m', length k = length l /\ length k' = length l /\
  wet_dry_1d_cnn net (two_links l k) ["TL"%string] 1 None = Ok m /\ wet_dry_1d_cnn net (two_links l k') ["TL"%string] 1 None = Ok m' /\
  n_ltb (nget (get [] m 0) 0) (nget (get [] m' 0) 0) = true.
Proof. exact coupled_links. Qed.
Print Assumptions C99_depends_on_other_links.

(** ... and the prediction for step [t] on values after [t] *)
Theorem C99_depends_on_the_future : exists net (l l' : list F64) t m m', firstn (t + 1) l = firstn (t + 1) l' /\ length l = length l' /\
  wet_dry_1d_cnn net (one_link l) ["TL"%string] 1 None = Ok m /\ wet_dry_1d_cnn net (one_link l') ["TL"%string] 1 None = Ok m' /\
  n_ltb (nget (get [] m t) 0) (nget (get [] m' t) 0) = true.
Proof. exact coupled_times. Qed.
Print Assumptions C99_depends_on_the_future.
