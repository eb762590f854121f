(** * Model of /repo/pycomlink/processing/min_max.py for any integer window

    MinMax_model.v has the function for [window >= 0]; here the indices of
    lines 34-37 are Python integers, negative ones counting from the end. *)
From Coq Require Import List ZArith Bool.
From Verif Require Import Base Num NumList NpOps MinMax_model Stft_model TfInfer_model TorchInfer_model.
Import ListNotations.
Local Open Scope Z_scope.

Section Def.
Context {O : numops}.
(** [for i in range(a, a + n)] with a body that may raise *)
Fixpoint for_range_z {S} (a : Z) (n : nat) (body : Z -> S -> res S) (st : S) : res S :=
  match n with
  | 0%nat => Ok st
  | Datatypes.S n => do st' <- body a st; for_range_z (a + 1) n body st'
  end.

(** min_max.py:34-37 *)
Definition zero_level (Ac_max Ac_min : list O) (window : Z) : res (list O) :=
  do Ar_max <- for_range_z window (Z.to_nat (Z.of_nat (length Ac_max) - window))
    (fun i Ar_max =>
       do x <- py_index Ac_max i;
       do m <- np_min (py_slice (i - window) (i + 1) Ac_min);
       match np_index (length Ar_max) i with
       | Some j => Ok (upd j (n_sub x m) Ar_max)
       | None => Err IndexError
       end)
    (repeat zero (length Ac_max));
  let Ar_max := map (fun x => if n_ltb x zero then zero else x) Ar_max in
  Ok (upd_slice 0 (repeat n_nan (py_bound (length Ar_max) window)) Ar_max).

(** min_max.py:4-39 [_calc_A_min_max] *)
Definition calc_A_min_max_int (tx_min tx_max rx_min rx_max : list O) (gT gR : O) (window : Z) : res (list O) :=
  let bias := n_div (n_add gT gR) (n_ofZ 2) in
  do d1 <- bcast2 n_sub tx_max rx_min;
  do d2 <- bcast2 n_sub tx_min rx_max;
  zero_level (fill_nan (map (fun x => n_sub x bias) d1)) (fill_nan (map (fun x => n_add x bias) d2)) window.
End Def.
