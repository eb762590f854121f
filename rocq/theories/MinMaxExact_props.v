(** * Property C150: min/max attenuation of levels in whole, half, quarter ... dB, in binary64 *)
From Coq Require Import List ZArith Bool Reals Lia Lra.
From Flocq Require Import Core.
From Verif Require Import Base Num NumF64 NumList NpOps MinMax_model MinMaxExact_spec MinMaxExact_proofs.
Import ListNotations.
Local Open Scope nat_scope.

(** Levels and quantisation steps that are missing or multiples of 2^-q dB: what the
    float64 code returns, errors included, are the numbers exact arithmetic gives -
    the mean that replaces missing levels and its rounding included. *)
Theorem C150_no_rounding_error : forall (q : Z) (tx_min tx_max rx_min rx_max : list F64) (gT gR : F64) w, (0 <= q <= 40)%Z ->
  all_in_steps q 24 (gT :: gR :: tx_min ++ tx_max ++ rx_min ++ rx_max) ->
  (forall l, In l [tx_min; tx_max; rx_min; rx_max] -> (Z.of_nat (length l) <= 2 ^ 24)%Z) ->
  calc_A_min_max (numbers tx_min) (numbers tx_max) (numbers rx_min) (numbers rx_max) (f_val gT : XR) (f_val gR) w =
  res_numbers (calc_A_min_max tx_min tx_max rx_min rx_max gT gR w).
Proof. exact min_max_exact. Qed.
Print Assumptions C150_no_rounding_error.

(** Hence offsets of the transmit and received levels that differ by an even number
    of dB change nothing, missing levels or not ... *)
Theorem C150_even_offset : forall (q : Z) (d e gT gR : F64) (rd re : R) (tx_min tx_max rx_min rx_max : list F64) w, (0 <= q <= 40)%Z ->
  f_val d = XFin rd -> f_val e = XFin re ->
  all_in_steps q 23 (d :: e :: gT :: gR :: tx_min ++ tx_max ++ rx_min ++ rx_max) ->
  (forall l, In l [tx_min; tx_max; rx_min; rx_max] -> (Z.of_nat (length l) <= 2 ^ 24)%Z) ->
  forall k : Z, (rd - re = 2 * IZR k)%R ->
  res_numbers (calc_A_min_max (plus_each d tx_min) (plus_each d tx_max) (plus_each e rx_min) (plus_each e rx_max) gT gR w) =
  res_numbers (calc_A_min_max tx_min tx_max rx_min rx_max gT gR w).
Proof. exact even_offset_float. Qed.
Print Assumptions C150_even_offset.

(** ... and without missing levels any offsets do. *)
Theorem C150_complete_data : forall (q : Z) (d e gT gR : F64) (rd re : R) (tx_min tx_max rx_min rx_max : list F64) w, (0 <= q <= 40)%Z ->
  f_val d = XFin rd -> f_val e = XFin re ->
  all_in_steps q 23 (d :: e :: gT :: gR :: tx_min ++ tx_max ++ rx_min ++ rx_max) ->
  (forall l, In l [tx_min; tx_max; rx_min; rx_max] -> (Z.of_nat (length l) <= 2 ^ 24)%Z) ->
  (forall x, In x (gT :: gR :: tx_min ++ tx_max ++ rx_min ++ rx_max) -> n_isnan x = false) ->
  res_numbers (calc_A_min_max (plus_each d tx_min) (plus_each d tx_max) (plus_each e rx_min) (plus_each e rx_max) gT gR w) =
  res_numbers (calc_A_min_max tx_min tx_max rx_min rx_max gT gR w).
Proof. exact complete_offset_float. Qed.
Print Assumptions C150_complete_data.

(** half dB, one received level missing: 60 + 60.5 over 2 is 60.25, filled with 60 *)
Local Notation h z := (f_div #z #2).
Example C150_case : all_in_steps 1 24 [h 1; fNaN; #(-50); h 21] /\
  match calc_A_min_max [#10; #10; #10] [#10; h 21; #10] [#(-50); #(-50); fNaN] [#(-50); #(-50); fNaN] #0 #0 1 with
  | Ok a => f_same_list a [fNaN; h 1; #0] | Err _ => false end = true.
Proof.
  split; [|vm_compute; reflexivity]. intros x [<-|[<-|[<-|[<-|[]]]]].
  - right. exists 1%Z. split; [lia|]. cbn; unfold F2R; cbn. f_equal. lra.
  - left. reflexivity.
  - right. exists (-100)%Z. split; [lia|]. cbn; unfold F2R; cbn. f_equal. lra.
  - right. exists 21%Z. split; [lia|]. cbn; unfold F2R; cbn. f_equal. lra.
Qed.
Example C150_case_offset :
  match calc_A_min_max (plus_each (h 7) [#10; #10; #10]) (plus_each (h 7) [#10; h 21; #10]) (plus_each (h 3) [#(-50); #(-50); fNaN]) (plus_each (h 3) [#(-50); #(-50); fNaN]) #0 #0 1 with
  | Ok a => f_same_list a [fNaN; h 1; #0] | Err _ => false end = true.
Proof. vm_compute. reflexivity. Qed.

(** Tenths of a dB are rounded already when the levels are read, and the result
    differs from the number meant: 0.3 - 0.1 is not 0.2. *)
Theorem C150_tenths_refuted : exists (tx rx a : list F64) w,
  (forall x, In x (tx ++ rx) -> exists z : Z, x = n_div (n_ofZ z) (n_ofZ 10)) /\
  calc_A_min_max tx tx rx rx (n_ofZ 0) (n_ofZ 0) w = Ok a /\
  exists i, get n_nan tx i = n_div (n_ofZ 3) (n_ofZ 10) /\ get n_nan tx (i - 1) = n_div (n_ofZ 1) (n_ofZ 10) /\ get n_nan rx i = (n_ofZ 0 : F64) /\
    n_ltb (get n_nan a i) (n_div (n_ofZ 2) (n_ofZ 10)) = true.
Proof.
  exists [n_div (n_ofZ 1) (n_ofZ 10); n_div (n_ofZ 3) (n_ofZ 10)], [n_ofZ 0; n_ofZ 0]. eexists. exists 1. split; [|split; [reflexivity|]].
  - intros x [<-|[<-|[<-|[<-|[]]]]]; [exists 1%Z|exists 3%Z|exists 0%Z|exists 0%Z]; reflexivity.
  - exists 1. repeat split; vm_compute; reflexivity.
Qed.
Print Assumptions C150_tenths_refuted.
