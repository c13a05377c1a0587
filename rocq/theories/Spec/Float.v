(** Float32 numbers and rounding to nearest, as in IEEE 754 (finite numbers only). *)
From Coq Require Import ZArith Qcanon.
From Verif Require Import Base.Num.
Local Open Scope Z_scope.

(** Finite single precision numbers. *)
Definition float32 (x : Qc) : Prop :=
  exists m e, x = (qz m * pow2 e)%Qc /\ - 2 ^ 24 < m < 2 ^ 24 /\ -149 <= e <= 104.

(** y is a float32 nearest to x. *)
Definition nearest32 (x y : Qc) : Prop :=
  float32 y /\ forall z, float32 z -> (qabs (x - y) <= qabs (x - z))%Qc.

(** Of two nearest floats, the one with an even last digit: [m] is the 24-digit integer significand. *)
Definition even32 (y : Qc) : Prop := exists m e, y = (qz m * pow2 e)%Qc /\ - 2 ^ 24 < m < 2 ^ 24 /\
  (2 ^ 23 <= Z.abs m \/ e = -149) /\ Z.even m = true.

(** The scaled values on which adding 1/2 in single precision rounds up to the next integer: the
    float just below 1/2, and the odd integers with 24 significant bits. *)
Definition half_exception (s : Qc) : Prop :=
  s = (qhalf - pow2 (-25))%Qc \/ exists k, s = qz k /\ Z.Odd k /\ 2 ^ 23 < Z.abs k < 2 ^ 24.
