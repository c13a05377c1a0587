(** What a value outside a fixed-point format becomes. *)
From Coq Require Import ZArith Qcanon String.
From Verif Require Import Base.Num Spec.Fixed.

(** v is what the format with sign flag k, i integer and f fractional bits makes of y:
    WRAP keeps the low bits (equal modulo 2^(k+i)), SAT takes the closest value of the format. *)
Definition overflow_value (S : string) (k i f : Z) (y v : Qc) : Prop :=
  fits k i f v /\
  ((S = "WRAP"%string /\ exists n, y = (v + qz n * pow2 (k + i))%Qc) \/
   (S = "SAT"%string /\ forall u, fits k i f u -> (qabs (y - v) <= qabs (y - u))%Qc)).
