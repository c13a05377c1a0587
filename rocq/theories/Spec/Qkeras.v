(** The QKeras quantizers as their documentation defines them (QKeras is not part
    of /repo): round half to even on the grid of the format, then clip. *)
From Coq Require Import ZArith Qcanon String.
From Verif Require Import Base.Num Spec.Fixed.
Local Open Scope Z_scope.

(** quantized_bits(bits, integer, symmetric, keep_negative=k, alpha=1), at least one magnitude bit. *)
Definition quantized_bits (bits integer symmetric k : Z) (x y : Qc) : Prop :=
  exists n, rounds_to "RND_CONV" (x * pow2 (bits - k - integer))%Qc n /\
    y = (qz (Z.max (k * (- 2 ^ (bits - k) + symmetric)) (Z.min n (2 ^ (bits - k) - 1))) * pow2 (integer - (bits - k)))%Qc.

(** quantized_relu(bits, integer): the non-negative values of the grid. *)
Definition quantized_relu (bits integer : Z) (x y : Qc) : Prop :=
  exists n, rounds_to "RND_CONV" (x * pow2 (bits - integer))%Qc n /\
    y = (qz (Z.max 0 (Z.min n (2 ^ bits - 1))) * pow2 (integer - bits))%Qc.

(** binary(alpha=a): the sign times a, also the meaning of quantized_bits(1) with a = 1. *)
Definition binary (a x y : Qc) : Prop := ((qz 0 <= x)%Qc /\ y = a) \/ ((x < qz 0)%Qc /\ y = (- a)%Qc).
