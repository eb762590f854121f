(** * Vocabulary for what the min/max attenuation depends on *)
From Coq Require Import List ZArith Bool Reals.
From Verif Require Import Base Num NumList Libm KR_spec RealSpec MinMax_spec.
Import ListNotations.
Local Open Scope nat_scope.

Section Spec.
Context {O : numops}.
(** the four series of a link that reports minimum and maximum levels *)
Record mm_levels : Type := mk_mm { tx_lo : list O; tx_hi : list O; rx_lo : list O; rx_hi : list O }.
Definition steps (n : nat) (m : mm_levels) : Prop :=
  length (tx_lo m) = n /\ length (tx_hi m) = n /\ length (rx_lo m) = n /\ length (rx_hi m) = n.
(** largest and smallest attenuation of one step, corrected for quantization *)
Definition most (m : mm_levels) (gT gR : O) : nat -> O := corrected_max (tx_hi m) (rx_lo m) gT gR.
Definition least (m : mm_levels) (gT gR : O) : nat -> O := corrected_min (tx_lo m) (rx_hi m) gT gR.
(** the [w] steps before step [i] of one record and step [i] itself are those of
    step [j] of the other *)
Definition same_window (w i j : nat) (m m' : mm_levels) : Prop := forall k, k <= w ->
  get n_nan (tx_lo m) (i - k) = get n_nan (tx_lo m') (j - k) /\ get n_nan (tx_hi m) (i - k) = get n_nan (tx_hi m') (j - k) /\
  get n_nan (rx_lo m) (i - k) = get n_nan (rx_lo m') (j - k) /\ get n_nan (rx_hi m) (i - k) = get n_nan (rx_hi m') (j - k).
(** what is needed for step [i] has been recorded *)
Definition recorded (gT gR : O) (w i : nat) (m : mm_levels) : Prop :=
  n_isnan (most m gT gR i) = false /\ forall k, i - w <= k <= i -> n_isnan (least m gT gR k) = false.
Definition recorded_finite (gT gR : O) (w i : nat) (m : mm_levels) : Prop :=
  finite (most m gT gR i) /\ forall k, i - w <= k <= i -> finite (least m gT gR k).
(** the divisor of the power law: coefficient times length *)
Definition divisor (L : libm O) (a b len k : O) : O :=
  n_mul (n_mul a (m_pow L (n_add (m_log L k) (n_lit 57721566 8)) b)) len.
End Spec.
Arguments mm_levels : clear implicits.

(** the series of levels that are real numbers *)
Definition real_levels (tl th rl rh : list R) : mm_levels XR := mk_mm (ofR tl : list XR) (ofR th) (ofR rl) (ofR rh).
(** attenuation at its largest in step [i] over attenuation at its smallest in step [k] *)
Definition excess (tl th rl rh : list R) (i k : nat) : R :=
  ((nth i th 0 - nth i rl 0) - (nth k tl 0 - nth k rh 0))%R.
