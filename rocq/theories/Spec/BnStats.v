(** Specification vocabulary for the statistics of a standalone batch-norm layer. *)
From Coq Require Import ZArith Qcanon List.
From Verif Require Import Base.Num Base.Tensor.
Import ListNotations.

(** The elements of x that entry c of a parameter of shape s is applied to (s broadcasts to the shape of x). *)
Definition group_of (s : list nat) (x : tensor Qc) (c : nat) : list Qc :=
  map snd (filter (fun pv => Nat.eqb (bidx s (shape x) (fst pv)) c) (combine (seq 0 (length (data x))) (data x))).
