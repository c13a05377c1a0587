(** The scaled values on which a rounding mode that adds 1/2 goes wrong in single precision, below 2^22. *)
From Coq Require Import ZArith Qcanon List String.
From Verif Require Import Base.Num Spec.Float.
Import ListNotations.
Local Open Scope Z_scope.

(** The greatest float32 below 1/2. *)
Definition below_half : Qc := (qhalf - pow2 (-25))%Qc.
(** RND at it, RND_MIN_INF at its negative, RND_INF at both.  The other modes have no such value. *)
Definition half_case (R : string) (s : Qc) : Prop :=
  (R = "RND"%string \/ R = "RND_INF"%string) /\ s = below_half \/
  (R = "RND_MIN_INF"%string \/ R = "RND_INF"%string) /\ s = (- below_half)%Qc.

(** The inputs of one element (k sign bits, width b, i integer bits) on which float32 is claimed exact: floats, scaled to a float without
    overflow or underflow, other than the exceptions above, and below 2^22 steps unless the overflow mode saturates. *)
Definition float_range (R S : string) (k b i : Z) (v : Qc) : Prop :=
  float32 v /\ float32 (v * pow2 (b - i))%Qc /\ 0 <= k <= 1 /\ 1 <= b <= 22 /\ -100 <= b - i <= 100 /\ ~ half_case R (v * pow2 (b - i))%Qc /\
  ((qabs (v * pow2 (b - i)) < pow2 22)%Qc \/ In S ["SAT"; "SAT_ZERO"; "SAT_SYM"]%string).
