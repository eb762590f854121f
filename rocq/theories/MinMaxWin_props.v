(** * Property C26: windows of any sign *)
From Coq Require Import List ZArith Bool Lia.
From Verif Require Import Base Num NumF64 NumList MinMax_model MinMaxWin_model MinMaxWin_proofs.
Import ListNotations.

(** A negative window is always refused: the loop starts at a negative index and
    takes the minimum of an empty slice at step -1 at the latest. *)
Theorem C26_negative_window : forall (tx_min tx_max rx_min rx_max : list F64) gT gR window n, (window < 0)%Z ->
  length tx_min = n -> length tx_max = n -> length rx_min = n -> length rx_max = n ->
  calc_A_min_max_int tx_min tx_max rx_min rx_max gT gR window = Err (if (window <? - Z.of_nat n)%Z then IndexError else ValueError).
Proof. exact int_negative. Qed.
Print Assumptions C26_negative_window.

(** for the others the model with Python indices is the one of C26 and C27 *)
Theorem C26_window_from_zero : forall (tx_min tx_max rx_min rx_max : list F64) gT gR (w : nat),
  calc_A_min_max_int tx_min tx_max rx_min rx_max gT gR (Z.of_nat w) = calc_A_min_max tx_min tx_max rx_min rx_max gT gR w.
Proof. exact int_nat. Qed.
Print Assumptions C26_window_from_zero.

Example C26_case_window :
  calc_A_min_max_int [#0; #0; #0] [#0; #0; #0] [#(-50); #(-50); #(-53)] [#(-50); #(-50); #(-52)] #0 #0 (-2) = Err ValueError /\
  calc_A_min_max_int [#0; #0; #0] [#0; #0; #0] [#(-50); #(-50); #(-53)] [#(-50); #(-50); #(-52)] #0 #0 (-4) = Err IndexError /\
  match calc_A_min_max_int [#0; #0; #0] [#0; #0; #0] [#(-50); #(-50); #(-53)] [#(-50); #(-50); #(-52)] #0 #0 1 with
  | Ok out => f_same_list out [fNaN; #0; #3] | Err _ => false end = true.
Proof. repeat split; vm_compute; reflexivity. Qed.
