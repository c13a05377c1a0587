(** Specification vocabulary for fixed-point formats and rounding.
    Independent of the model. *)
From Coq Require Import ZArith Qcanon List String.
From Verif Require Import Base.Num.
Import ListNotations.
Open Scope Z_scope.

(** The codes of a b-bit two's-complement (k = 1) or unsigned (k = 0) integer. *)
Definition code (k b m : Z) : Prop :=
  (k = 0 /\ 0 <= m < 2 ^ b) \/ (k = 1 /\ - 2 ^ (b - 1) <= m < 2 ^ (b - 1)).

(** Value x of the format with b bits in total, i of them left of the binary
    point (sign included). *)
Definition representable (k b i : Z) (x : Qc) : Prop :=
  exists m, code k b m /\ x = (qz m * pow2 (i - b))%Qc.

(** x is a multiple of 2^-f. *)
Definition on_grid (f : Z) (x : Qc) : Prop := exists m, x = (qz m * pow2 (- f))%Qc.

(** x belongs to the format with sign flag k, i integer bits (sign excluded)
    and f fractional bits. *)
Definition fits (k i f : Z) (x : Qc) : Prop :=
  on_grid f x /\ (- (qz k * pow2 i) <= x)%Qc /\ (x < pow2 i)%Qc.

(** Rounding rules on a scaled value. *)
Definition nearest (x : Qc) (n : Z) : Prop := (qz n - qhalf <= x)%Qc /\ (x <= qz n + qhalf)%Qc.
Definition tie (x : Qc) : Prop := exists m, x = (qz m + qhalf)%Qc.

Definition rounding_names : list string :=
  ["TRN"; "TRN_ZERO"; "RND"; "RND_ZERO"; "RND_MIN_INF"; "RND_INF"; "RND_CONV"]%string.
Definition overflow_names : list string :=
  ["SAT"; "SAT_ZERO"; "SAT_SYM"; "WRAP"; "WRAP_SM"]%string.

Definition rounds_to (mode : string) (x : Qc) (n : Z) : Prop :=
  (mode = "TRN"%string /\ (qz n <= x)%Qc /\ (x < qz n + qz 1)%Qc)
  \/ (mode = "TRN_ZERO"%string /\
      ((qz 0 <= x)%Qc /\ (qz n <= x)%Qc /\ (x < qz n + qz 1)%Qc \/
       (x < qz 0)%Qc /\ (qz n - qz 1 < x)%Qc /\ (x <= qz n)%Qc))
  \/ (mode = "RND"%string /\ nearest x n /\ (tie x -> (x < qz n)%Qc))
  \/ (mode = "RND_MIN_INF"%string /\ nearest x n /\ (tie x -> (qz n < x)%Qc))
  \/ (mode = "RND_ZERO"%string /\ nearest x n /\
      (tie x -> ((qz 0 < x)%Qc -> (qz n < x)%Qc) /\ ((x < qz 0)%Qc -> (x < qz n)%Qc)))
  \/ (mode = "RND_INF"%string /\ nearest x n /\
      (tie x -> ((qz 0 < x)%Qc -> (x < qz n)%Qc) /\ ((x < qz 0)%Qc -> (qz n < x)%Qc)))
  \/ (mode = "RND_CONV"%string /\ nearest x n /\ (tie x -> Z.Even n)).

(** c is the closest element of P to v. *)
Definition closest (P : Z -> Prop) (v c : Z) : Prop :=
  P c /\ forall c', P c' -> Z.abs (v - c) <= Z.abs (v - c').
