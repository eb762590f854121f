(** * What the PyTorch inference functions are for *)
From Coq Require Import List ZArith Bool String.
From Verif Require Import Base Num NumList TfInfer_model TorchInfer_model.
Import ListNotations.
Local Open Scope nat_scope.
Local Notation length := List.length.

(** a model that treats every sample separately *)
Definition samplewise {A B} (net : list A -> list B) (f : A -> B) : Prop := forall b, net b = map f b.

Section Spec.
Context {O : numops}.
(** a well-formed data cube *)
Definition cube_ok (d : cube O) : Prop :=
  NoDup (c_ids d) /\ NoDup (c_times d) /\ length (c_values d) = length (c_ids d) /\
  forall i, i < length (c_ids d) -> length (get [] (c_values d) i) = length (c_times d).
(** the model input for link [i]: [w] steps from [s], channels first *)
Definition input_at (d : cube O) (i s w : nat) (x : list (list O)) : Prop :=
  length x = c_channels d /\ forall c, c < c_channels d -> length (get [] x c) = w /\
    forall k, k < w -> nget (get [] x c) k = nget (get [] (get [] (c_values d) i) (s + k)) c.
End Spec.
