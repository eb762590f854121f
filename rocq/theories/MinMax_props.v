(** * Properties C26, C27: min/max attenuation *)
From Coq Require Import List ZArith Bool Reals Lra Lia.
From Flocq Require Import Core.
From Verif Require Import Base Num NumF64 NumList NpOps RealSpec RealStat MinMax_model MinMax_spec MinMax_proofs.
Import ListNotations.
Local Open Scope nat_scope.

Theorem C26_min_max_window : forall (tx_min tx_max rx_min rx_max : list F64) (gT gR : F64) window n,
  length tx_min = n -> length tx_max = n -> length rx_min = n -> length rx_max = n ->
  exists fmax fmin out, calc_A_min_max tx_min tx_max rx_min rx_max gT gR window = Ok out /\ length out = n /\
  forall i, i < n ->
    (i < window -> get n_nan out i = n_nan) /\
    (window <= i ->
       n_ltb (get n_nan out i) (n_ofZ 0) = false /\
       exists m,
       is_min (map (fun k => filled fmin (corrected_min tx_min rx_max gT gR k)) (seq (i - window) (window + 1))) m /\
       get n_nan out i = positive_part (n_sub (filled fmax (corrected_max tx_max rx_min gT gR i)) m)).
Proof. exact (min_max_float F64sem). Qed.
Print Assumptions C26_min_max_window.

(** one missing sample at the end, replaced by the rounded mean 51 *)
Example C26_case :
  match calc_A_min_max [#0; #0; #0; #0] [#0; #0; #0; #0] [#(-50); #(-50); #(-53); fNaN] [#(-50); #(-50); #(-52); #(-50)]
    #0 #0 1 with Ok out => f_same_list out [fNaN; #0; #3; #1] | Err _ => false end = true.
Proof. vm_compute. reflexivity. Qed.

Theorem C27_min_max_no_nan_exact : forall (tx_min tx_max rx_min rx_max : list XR) (gT gR : R) window n,
  length tx_min = n -> length tx_max = n -> length rx_min = n -> length rx_max = n ->
  (forall x, In x (tx_min ++ tx_max ++ rx_min ++ rx_max) -> n_isinf x = false) ->
  let cmax := corrected_max tx_max rx_min (XFin gT : XR) (XFin gR : XR) in
  let cmin := corrected_min tx_min rx_max (XFin gT : XR) (XFin gR : XR) in
  (exists i, i < n /\ n_isnan (cmax i) = false) -> (exists i, i < n /\ n_isnan (cmin i) = false) ->
  exists (ymax ymin : list R) out,
    numbers cmax n = ofR ymax /\ numbers cmin n = ofR ymin /\
    calc_A_min_max tx_min tx_max rx_min rx_max (XFin gT : XR) (XFin gR : XR) window = Ok out /\
    let fmax := XFin (IZR (ZnearestE (rmean ymax))) : XR in
    let fmin := XFin (IZR (ZnearestE (rmean ymin))) : XR in
    forall i, i < n -> window <= i ->
    exists x m : R,
      filled fmax (cmax i) = (XFin x : XR) /\
      (exists k, i - window <= k <= i /\ filled fmin (cmin k) = (XFin m : XR)) /\
      (forall k, i - window <= k <= i -> exists y, filled fmin (cmin k) = (XFin y : XR) /\ (m <= y)%R) /\
      get (n_nan : XR) out i = (XFin (Rmax 0 (x - m)) : XR).
Proof. exact min_max_exact. Qed.
Print Assumptions C27_min_max_no_nan_exact.

(** the same data in exact arithmetic: the hypotheses hold *)
Example C27_case :
  let tx := [XFin 0 : XR; XFin 0 : XR; XFin 0 : XR; XFin 0 : XR] in
  let rx_min := [XFin (-50) : XR; XFin (-50) : XR; XFin (-53) : XR; XNaN : XR] in
  let rx_max := [XFin (-50) : XR; XFin (-50) : XR; XFin (-52) : XR; XFin (-50) : XR] in
  (forall x, In x (tx ++ tx ++ rx_min ++ rx_max) -> n_isinf x = false) /\
  exists out, calc_A_min_max tx tx rx_min rx_max (XFin 0 : XR) (XFin 0 : XR) 1 = Ok out /\
  exists r, (0 <= r)%R /\ get (n_nan : XR) out 3 = (XFin r : XR).
Proof.
  cbv zeta. assert (H : forall x : XR, In x [XFin 0 : XR; XFin 0 : XR; XFin 0 : XR; XFin 0 : XR;XFin 0 : XR; XFin 0 : XR; XFin 0 : XR; XFin 0 : XR;
     XFin (-50) : XR; XFin (-50) : XR; XFin (-53) : XR; XNaN : XR; XFin (-50) : XR; XFin (-50) : XR; XFin (-52) : XR; XFin (-50) : XR] -> n_isinf x = false).
  { intros x Hx. simpl in Hx. repeat (destruct Hx as [<-|Hx]; [reflexivity|]). destruct Hx. }
  split; [exact H|].
  destruct (min_max_exact [XFin 0 : XR; XFin 0 : XR; XFin 0 : XR; XFin 0 : XR] [XFin 0 : XR; XFin 0 : XR; XFin 0 : XR; XFin 0 : XR]
    [XFin (-50) : XR; XFin (-50) : XR; XFin (-53) : XR; XNaN : XR] [XFin (-50) : XR; XFin (-50) : XR; XFin (-52) : XR; XFin (-50) : XR] 0 0 1 4
    eq_refl eq_refl eq_refl eq_refl H) as (ymax & ymin & out & _ & _ & E & G).
  - exists 0. split; [lia|]. unfold corrected_max, bias. simpl. rewrite Req_bool_false by lra. reflexivity.
  - exists 0. split; [lia|]. unfold corrected_min, bias. simpl. rewrite Req_bool_false by lra. reflexivity.
  - exists out. split; [exact E|]. destruct (G 3) as (x & m & _ & _ & _ & R); [lia|lia|].
    exists (Rmax 0 (x - m)). split; [apply Rmax_l|exact R].
Qed.
