(** * Property C149: what the min/max attenuation and rain rate of a step depend on *)
From Coq Require Import List ZArith Bool String Reals Lra Lia.
From Flocq Require Import Core.
From Verif Require Import Base Num NumF64 NumList NpOps RealSpec Libm Libm64 KR_model KR_spec KR_proofs Chain_spec Chain_proofs Chain_props
  MinMax_model MinMax_spec MinMaxLocal_spec MinMaxLocal_proofs.
Import ListNotations.
Local Open Scope nat_scope.
Local Notation length := List.length.

(** If the window of a step has been recorded, attenuation and rain rate of that
    step are a function of the window alone: any other record, of any length,
    that contains the same window has the same bits there.  Gaps elsewhere do
    not matter. *)
Theorem C149_only_the_window : forall (m m' : mm_levels F64) gT gR w n n' A A' i j, steps n m -> steps n' m' ->
  calc_A_min_max (tx_lo m) (tx_hi m) (rx_lo m) (rx_hi m) gT gR w = Ok A -> calc_A_min_max (tx_lo m') (tx_hi m') (rx_lo m') (rx_hi m') gT gR w = Ok A' ->
  w <= i -> i < n -> w <= j -> j < n' -> same_window w i j m m' -> recorded gT gR w i m ->
  get n_nan A i = get n_nan A' j /\
  forall (L : libm F64) cubic len a b pol R_min k out out', positive b ->
    calc_R_from_A_min_max L cubic A len None (Some (CScalar a)) (Some (CScalar b)) pol R_min k = Ok out ->
    calc_R_from_A_min_max L cubic A' len None (Some (CScalar a)) (Some (CScalar b)) pol R_min k = Ok out' -> get n_nan out i = get n_nan out' j.
Proof.
  exact (fun m m' gT gR w n n' A A' i j Hs Hs' E E' Wi Hi Wj Hj SW RC => conj (local_att F64sem m m' gT gR w n n' A A' i j Hs Hs' E E' Wi Hi Wj Hj SW RC)
    (fun L cubic len a b pol R_min k out out' Hb R R' => local_rain F64sem L cubic m m' gT gR w n n' len a b pol R_min k A A' out out' i j Hb Hs Hs' E E' R R' Wi Hi Wj Hj SW RC)).
Qed.
Print Assumptions C149_only_the_window.

(** a gap two steps before the window of step 3 does not matter *)
Definition mm_case (tl th rl rh : list F64) : mm_levels F64 := mk_mm tl th rl rh.
Example C149_case_window : let z := repeat #0 5 in let m := mm_case z z [#(-50); fNaN; #(-51); #(-55); #(-50)] [#(-49); fNaN; #(-49); #(-50); #(-50)] in
  let m' := mm_case (repeat #0 2) (repeat #0 2) [#(-51); #(-55)] [#(-49); #(-50)] in
  match calc_A_min_max (tx_lo m) (tx_hi m) (rx_lo m) (rx_hi m) #1 #1 1, calc_A_min_max (tx_lo m') (tx_hi m') (rx_lo m') (rx_hi m') #1 #1 1 with
  | Ok A, Ok A' => f_same (get n_nan A 3) #4 && f_same (get n_nan A' 1) #4 && negb (n_isnan (most m #1 #1 3)) && negb (n_isnan (least m #1 #1 2)) && negb (n_isnan (least m #1 #1 3))
  | _, _ => false end = true.
Proof. vm_compute. reflexivity. Qed.

(** If the step itself is missing, its attenuation is made up from the whole
    record, later steps included. *)
Lemma gap_check : let z := repeat #0 4 in let hi := repeat #(-50) 4 in
  match calc_A_min_max z z [#(-50); #(-50); fNaN; #(-50)] hi #0 #0 1, calc_A_min_max z z [#(-50); #(-50); fNaN; #(-80)] hi #0 #0 1 with
  | Ok A, Ok A' => f_same (get n_nan A 2) #0 && f_same (get n_nan A' 2) #10 | _, _ => false end = true.
Proof. vm_compute. reflexivity. Qed.
Lemma gap_not_local : exists (m m' : mm_levels F64) w i A A', steps 4 m /\ steps 4 m' /\ w <= i < 3 /\
  (forall k, k <= i -> same_window 0 k k m m') /\
  calc_A_min_max (tx_lo m) (tx_hi m) (rx_lo m) (rx_hi m) (n_ofZ 0) (n_ofZ 0) w = Ok A /\
  calc_A_min_max (tx_lo m') (tx_hi m') (rx_lo m') (rx_hi m') (n_ofZ 0) (n_ofZ 0) w = Ok A' /\
  n_eqb (get n_nan A i) (n_ofZ 0) = true /\ n_eqb (get n_nan A' i) (n_ofZ 10) = true.
Proof.
  pose proof gap_check as H. cbv zeta in H.
  destruct (calc_A_min_max (repeat #0 4) (repeat #0 4) [#(-50); #(-50); fNaN; #(-50)] (repeat #(-50) 4) #0 #0 1) as [A|] eqn:E; [|discriminate].
  destruct (calc_A_min_max (repeat #0 4) (repeat #0 4) [#(-50); #(-50); fNaN; #(-80)] (repeat #(-50) 4) #0 #0 1) as [A'|] eqn:E'; [|discriminate].
  apply andb_true_iff in H as [H1 H2]. apply f_same_eq in H1, H2.
  exists (mm_case (repeat #0 4) (repeat #0 4) [#(-50); #(-50); fNaN; #(-50)] (repeat #(-50) 4)), (mm_case (repeat #0 4) (repeat #0 4) [#(-50); #(-50); fNaN; #(-80)] (repeat #(-50) 4)).
  exists 1, 2, A, A'. split; [repeat split|]. split; [repeat split|]. split; [lia|]. split; [|split; [exact E|]; split; [exact E'|]].
  - intros k Hk d Hd. replace d with 0 by lia. rewrite Nat.sub_0_r. destruct k as [|[|[|k]]]; [auto..|lia].
  - rewrite H1, H2. split; vm_compute; reflexivity.
Qed.
Theorem C149_gaps_refuted : exists (m m' : mm_levels F64) w i A A', steps 4 m /\ steps 4 m' /\ w <= i < 3 /\
  (forall k, k <= i -> same_window 0 k k m m') /\
  calc_A_min_max (tx_lo m) (tx_hi m) (rx_lo m) (rx_hi m) (n_ofZ 0) (n_ofZ 0) w = Ok A /\
  calc_A_min_max (tx_lo m') (tx_hi m') (rx_lo m') (rx_hi m') (n_ofZ 0) (n_ofZ 0) w = Ok A' /\
  n_eqb (get n_nan A i) (n_ofZ 0) = true /\ n_eqb (get n_nan A' i) (n_ofZ 10) = true.
Proof. exact gap_not_local. Qed.
Print Assumptions C149_gaps_refuted.

(** The attenuation is zero exactly if, after the bias correction, the largest
    attenuation of the step is not above the smallest one of any step in the
    window.  The rain rate is zero then. *)
Theorem C149_zero_iff_quiet : forall (m : mm_levels F64) gT gR w n A i, steps n m ->
  calc_A_min_max (tx_lo m) (tx_hi m) (rx_lo m) (rx_hi m) gT gR w = Ok A -> w <= i -> i < n -> recorded_finite gT gR w i m ->
  n_eqb (get n_nan A i) (n_ofZ 0) = true <-> forall k, i - w <= k <= i -> n_leb (most m gT gR i) (least m gT gR k) = true.
Proof. exact zero_iff_quiet. Qed.
Print Assumptions C149_zero_iff_quiet.

Theorem C149_quiet_is_dry : forall (L : libm F64) cubic (m : mm_levels F64) gT gR w n len a b pol R_min k A out i, Chain_spec.pow_zero L ->
  positive b -> positive (n_div one b) -> positive (divisor L a b len k) -> steps n m ->
  calc_A_min_max (tx_lo m) (tx_hi m) (rx_lo m) (rx_hi m) gT gR w = Ok A ->
  calc_R_from_A_min_max L cubic A len None (Some (CScalar a)) (Some (CScalar b)) pol R_min k = Ok out -> w <= i -> i < n -> recorded_finite gT gR w i m ->
  (forall j, i - w <= j <= i -> n_leb (most m gT gR i) (least m gT gR j) = true) -> n_eqb (get n_nan out i) (n_ofZ 0) = true.
Proof.
  exact (fun L cubic m gT gR w n len a b pol R_min k A out i pz Hb He HD Hs E R => quiet_rain F64sem L cubic pz m gT gR w n len a b pol R_min k A out i Hb He HD Hs E R).
Qed.
Print Assumptions C149_quiet_is_dry.

(** levels that change by one quantization step, with gains of 1 dB *)
Example C149_case_quiet : let z := repeat #0 4 in let m := mm_case z z [#(-50); #(-51); #(-50); #(-51)] [#(-49); #(-50); #(-50); #(-50)] in
  match calc_A_min_max (tx_lo m) (tx_hi m) (rx_lo m) (rx_hi m) #1 #1 1 with
  | Ok A => f_same_list A [fNaN; #0; #0; #0] && n_leb (most m #1 #1 1) (least m #1 #1 0) && n_leb (most m #1 #1 1) (least m #1 #1 1)
  | Err _ => false end = true.
Proof. vm_compute. reflexivity. Qed.

(** A larger transmit maximum or a smaller received minimum in the step, and a
    smaller transmit minimum or a larger received maximum within the window,
    never lower the attenuation or the rain rate of the step. *)
Theorem C149_monotone : forall (m m' : mm_levels F64) gT gR w n A A' i, steps n m -> steps n m' ->
  calc_A_min_max (tx_lo m) (tx_hi m) (rx_lo m) (rx_hi m) gT gR w = Ok A -> calc_A_min_max (tx_lo m') (tx_hi m') (rx_lo m') (rx_hi m') gT gR w = Ok A' ->
  w <= i -> i < n -> recorded_finite gT gR w i m -> recorded_finite gT gR w i m' ->
  n_leb (get n_nan (tx_hi m) i) (get n_nan (tx_hi m') i) = true -> n_leb (get n_nan (rx_lo m') i) (get n_nan (rx_lo m) i) = true ->
  (forall k, i - w <= k <= i -> n_leb (get n_nan (tx_lo m') k) (get n_nan (tx_lo m) k) = true /\ n_leb (get n_nan (rx_hi m) k) (get n_nan (rx_hi m') k) = true) ->
  n_leb (get n_nan A i) (get n_nan A' i) = true /\
  forall (L : libm F64) cubic len a b pol R_min k out out', pow_sane L -> pow_mono L -> positive b -> positive (divisor L a b len k) -> finite (divisor L a b len k) ->
    calc_R_from_A_min_max L cubic A len None (Some (CScalar a)) (Some (CScalar b)) pol R_min k = Ok out ->
    calc_R_from_A_min_max L cubic A' len None (Some (CScalar a)) (Some (CScalar b)) pol R_min k = Ok out' ->
    n_leb (get n_nan out i) (get n_nan out' i) = true.
Proof.
  exact (fun m m' gT gR w n A A' i Hs Hs' E E' Wi Hi RF RF' H1 H2 H3 => conj (mono_att F64sem m m' gT gR w n A A' i Hs Hs' E E' Wi Hi RF RF' H1 H2 H3)
    (fun L cubic len a b pol R_min k out out' sane mono Hb HD FD R R' =>
       mono_rain F64sem L cubic sane mono m m' gT gR w n len a b pol R_min k A A' out out' i Hb HD FD Hs Hs' E E' R R' Wi Hi RF RF' H1 H2 H3)).
Qed.
Print Assumptions C149_monotone.

Example C149_case_monotone : let z := repeat #0 3 in
  match calc_A_min_max z z [#(-50); #(-52); #(-56)] [#(-50); #(-51); #(-54)] #1 #0 1,
        calc_A_min_max z z [#(-50); #(-52); #(-60)] [#(-50); #(-50); #(-54)] #1 #0 1 with
  | Ok A, Ok A' => f_same_list A [fNaN; #1; #4] && f_same_list A' [fNaN; #1; #9] | _, _ => false end = true.
Proof. vm_compute. reflexivity. Qed.

(** In exact arithmetic the attenuation is what the largest difference between
    the maximum attenuation of the step and a minimum attenuation within the
    window exceeds [gT + gR] by. *)
Theorem C149_exact_excess : forall tl th rl rh gT gR w n out i, length tl = n -> length th = n -> length rl = n -> length rh = n ->
  calc_A_min_max (ofR tl) (ofR th) (ofR rl) (ofR rh) (XFin gT : XR) (XFin gR : XR) w = Ok out -> w <= i -> i < n ->
  exists k, i - w <= k <= i /\ (forall j, i - w <= j <= i -> (excess tl th rl rh i j <= excess tl th rl rh i k)%R) /\
    get (n_nan : XR) out i = (XFin (Rmax 0 (excess tl th rl rh i k - (gT + gR))%R) : XR).
Proof. exact excess_att. Qed.
Print Assumptions C149_exact_excess.

(** 56 dB against 50 dB one step before *)
Example C149_case_excess : excess [0; 0]%R [0; 0]%R [-50; -56]%R [-50; -54]%R 1 0 = 6%R /\ excess [0; 0]%R [0; 0]%R [-50; -56]%R [-50; -54]%R 1 1 = 2%R.
Proof. unfold excess. simpl. split; ring. Qed.

(** the laws assumed of the power function hold of the correctly rounded one,
    and the divisor meets its hypotheses *)
Example C149_case_divisor : positive (divisor F64demo #1 #1 #2 #90) /\ finite (divisor F64demo #1 #1 #2 #90) /\ positive (n_div one #1).
Proof. unfold positive, finite. repeat split; vm_compute; reflexivity. Qed.
