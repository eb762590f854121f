(** * Aggregated sums in binary64 (C48) *)
From Coq Require Import List ZArith Bool String Lia Reals Lra.
From Flocq Require Import Core IEEE754.BinarySingleNaN.
From Verif Require Import Base Num NumF64 NumList RealStat Temporal_model Temporal_spec SumFloat_spec SumFloat_proofs.
Import ListNotations.
Local Open Scope Z_scope.

(** whole multiples of a power of two (counts of tips, say) are conserved by any summation that is exact for them *)
Theorem C48_counts_are_conserved_in_float :
  forall (method : list F64 -> F64) (df : list (Z * F64)) (new : list Z) label o a b e,
  exact_sum method -> countable e (map snd df) ->
  df <> [] -> increasing new -> common_period (map fst df) new a b -> label = "right"%string \/ label = "left"%string ->
  exists g (labelled : Z * F64 -> bool), aggregate_df_onto_DatetimeIndex true df (Aware new) method label o = Ok g /\
  (forall t v, In (t, v) df -> (labelled (t, v) = true <-> exists n, label_of label new a b t n)) /\
  n_eqb (method (map snd g)) (method (map snd (filter labelled df))) = true.
Proof. exact aggregate_conserves_float. Qed.
Print Assumptions C48_counts_are_conserved_in_float.

(** summing from left to right is such a summation *)
Theorem C48_left_to_right_is_exact : exact_sum (@n_sum F64).
Proof. exact n_sum_exact. Qed.
Print Assumptions C48_left_to_right_is_exact.

(** tenths are not conserved: 0.1 + (0.2 + 0.3) is not (0.1 + 0.2) + 0.3 *)
Definition tenths : list (Z * F64) := [(1, f_div #1 #10); (2, f_div #2 #10); (3, f_div #3 #10)].
Theorem C48_tenths_are_not_conserved_refuted : exists (new : list Z) g,
  increasing new /\ common_period (map fst tenths) new 1 3 /\
  aggregate_df_onto_DatetimeIndex true tenths (Aware new) (@n_sum F64) "right" 0 = Ok g /\
  (forall t v, In (t, v) tenths -> exists n, label_of "right" new 1 3 t n) /\
  n_eqb (n_sum (map snd g)) (n_sum (map snd tenths)) = false.
Proof.
  exists [1; 3]. eexists. split; [repeat constructor|]. split.
  { exists 1, 3, 1, 3. split; [|split; [|split; reflexivity]]; unfold first_last, tenths; cbn [map fst In]; intuition lia. }
  split; [reflexivity|]. split; [|vm_compute; reflexivity].
  intros t v H. unfold tenths in H. cbn [In] in H.
  destruct H as [H|[H|[H|[]]]]; injection H as <- _; [exists 1|exists 3|exists 3]; left; (split; [reflexivity|]); unfold right_label; cbn [In]; intuition lia.
Qed.
Print Assumptions C48_tenths_are_not_conserved_refuted.

(** the same three samples counted in tips: 1 + (2 + 3) = 6 *)
Example C48_case_float :
  match aggregate_df_onto_DatetimeIndex true [(1, #1); (2, #2); (3, #3)] (Aware [1; 3]) (@n_sum F64) "right" 0 with
  | Ok g => f_same_list (map snd g) [#1; #5] && n_eqb (n_sum (map snd g)) #6 | Err _ => false end = true.
Proof. vm_compute. reflexivity. Qed.
Example C48_case_countable : countable 0 [#1; #2; #3].
Proof.
  assert (V : forall z, Z.abs z <= 2 ^ 53 -> f_val (n_ofZ z : F64) = XFin (IZR z)) by (intros z H; exact (val_ofZ _ F64sem z H)).
  assert (B : forall z, Z.abs z <= 2 ^ 53 -> B2R (n_ofZ z : F64) = IZR z) by (intros z H; apply f_val_B2R; auto).
  split; [lia|]. split.
  - intros v [<-|[<-|[<-|[]]]]; [exists 1|exists 2|exists 3]; rewrite V by lia; cbn; f_equal; lra.
  - cbn [map rsum fold_right]. rewrite !B by lia. rewrite !Rabs_pos_eq by lra. change (bpow radix2 0) with 1%R. apply Rle_trans with 6%R; [unfold rsum; cbn; lra|]. rewrite Rmult_1_r. apply IZR_le. lia.
Qed.
