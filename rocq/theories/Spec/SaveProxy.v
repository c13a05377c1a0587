(** What a stored signature can hold. *)
From Coq Require Import ZArith List.
From Verif Require Import Base.Tensor.
Local Open Scope Z_scope.

(** Numbers of tf.int8. *)
Definition int8 (z : Z) : Prop := -128 <= z <= 127.
(** An int8 array without an axis of length 0. *)
Definition plain (t : tensor Z) : Prop := wf_tensor t /\ Forall int8 (data t) /\ ~ In 0%nat (shape t).
