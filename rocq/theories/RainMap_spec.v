(** * Vocabulary for rain maps *)
From Coq Require Import List ZArith Bool.
From Verif Require Import Base Num Libm KR_spec Chain_spec Workflow_model Workflow_spec RainMap_model.
Import ListNotations.
Local Open Scope nat_scope.

Section Spec.
Context {O : numops}.
(** missing or at least 0 *)
Definition rain_or_missing (v : O) : Prop := missing v \/ nonneg v.
(** a distance: not negative, and not the negative zero *)
Definition distance (d : O) : Prop := not_negative d /\ not_negative (n_div (n_ofZ 1) d).
(** weights 1 / d ** p are never negative *)
Definition weights_sane (L : libm O) (p : O) : Prop := forall d, distance d -> not_negative (n_div (n_ofZ 1) (m_pow L d p)).
(** the search for neighbours returns distances *)
Definition distances_ok (query : list (O * O) -> O * O -> nat -> O -> option O -> list (O * nat)) : Prop :=
  forall X q k eps ub d i, In (d, i) (query X q k eps ub) -> i < length X -> distance d.
(** at most as large, if both are numbers *)
Definition le_or_missing (x y : O) : Prop := missing x \/ missing y \/ n_leb x y = true.
(** levels without infinite values *)
Definition no_infinite (tsl rsl : list O) : Prop :=
  length rsl = length tsl /\ forall t, t < length tsl -> n_isinf (get n_nan tsl t) = false /\ n_isinf (get n_nan rsl t) = false.
(** a link with finite or missing levels and usable coefficients *)
Definition good_link (k : link O) : Prop :=
  no_infinite (lk_tsl k) (lk_rsl k) /\ plain_coefficients (lk_kr k) /\ (Z.of_nat (length (lk_tsl k)) <= 2 ^ 53)%Z.
(** its wet fraction is below the limit *)
Definition reliable (std : list O -> O) (q : map_par O) (times : list O) (k : link O) : bool :=
  n_ltb (wet_fraction (length (lk_tsl k)) (wet_channels std q times k)) (mp_limit q).
(** a channel that did not measure anything *)
Definition silent (p : raw_par O) (c : list O * list O) : Prop := no_infinite (fst c) (snd c) /\
  forall t, t < length (fst c) -> ~ measured (rp_fill_t p) (rp_fill_r p) (fst c) (snd c) t.
End Spec.
