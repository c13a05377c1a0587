(** Specification vocabulary for matrix products, convolutions and bit operations. *)
From Coq Require Import ZArith Qcanon List Bool.
From Verif Require Import Base.Num.
Import ListNotations.
Local Open Scope nat_scope.

(** f 0 + ... + f (n - 1) *)
Fixpoint sum_to (n : nat) (f : nat -> Z) : Z := match n with O => 0%Z | S m => (sum_to m f + f m)%Z end.
Fixpoint qsum_to (n : nat) (f : nat -> Qc) : Qc := match n with O => qz 0 | S m => (qsum_to m f + f m)%Qc end.

(** Values of a sample with zeros outside: one and two spatial dimensions, coordinates in Z. *)
Definition padded1 (x : list Qc) (n cin : nat) (i : Z) (c : nat) : Qc :=
  if ((0 <=? i) && (i <? Z.of_nat n))%Z then nth (Z.to_nat i * cin + c) x (qz 0) else qz 0.
Definition padded2 (x : list Qc) (h w cin : nat) (i j : Z) (c : nat) : Qc :=
  if ((0 <=? i) && (i <? Z.of_nat h) && (0 <=? j) && (j <? Z.of_nat w))%Z
  then nth ((Z.to_nat i * w + Z.to_nat j) * cin + c) x (qz 0) else qz 0.
(** The same for samples stored channel by channel. *)
Definition padded1_first (x : list Qc) (n : nat) (i : Z) (c : nat) : Qc :=
  if ((0 <=? i) && (i <? Z.of_nat n))%Z then nth (c * n + Z.to_nat i) x (qz 0) else qz 0.
Definition padded2_first (x : list Qc) (h w : nat) (i j : Z) (c : nat) : Qc :=
  if ((0 <=? i) && (i <? Z.of_nat h) && (0 <=? j) && (j <? Z.of_nat w))%Z
  then nth (c * (h * w) + (Z.to_nat i * w + Z.to_nat j)) x (qz 0) else qz 0.

(** Summing the leaves of a tree in floating point: rounded after every addition. *)
Inductive stree : Type := SLeaf (v : Z) | SNode (a b : stree).
Fixpoint leaves_of (t : stree) : list Z := match t with SLeaf v => [v] | SNode a b => leaves_of a ++ leaves_of b end.
Fixpoint fsum (rn : Qc -> Qc) (t : stree) : Qc := match t with SLeaf v => rn (qz v) | SNode a b => rn (fsum rn a + fsum rn b)%Qc end.

(** [b] is the number of bits of the least fixed-point format on the grid 2^-r that covers the range
    [mn, mx]: none for the range {0}, else integer bits, fractional bits and a sign bit if mn < 0. *)
Definition range_bits (r : Z) (mn mx : Qc) (b : Z) : Prop :=
  (mn = qz 0 /\ mx = qz 0 /\ b = 0%Z) \/
  ((mn <> qz 0 \/ mx <> qz 0) /\ exists k i, b = (k + i + r)%Z /\ (k = if qltb mn (qz 0) then 1 else 0)%Z /\
     (- pow2 i <= mn)%Qc /\ (mx < pow2 i)%Qc /\
     forall i', (- pow2 i' <= mn)%Qc -> (mx < pow2 i')%Qc -> (- r <= i')%Z -> (i <= i')%Z).
(** The same for the positive part of the range: no sign bit. *)
Definition relu_bits (r : Z) (mx : Qc) (b : Z) : Prop :=
  ((mx <= qz 0)%Qc /\ b = 0%Z) \/
  ((qz 0 < mx)%Qc /\ exists i, b = (i + r)%Z /\ (mx < pow2 i)%Qc /\ forall i', (mx < pow2 i')%Qc -> (i <= i')%Z).
(** [b] is the distance from the highest to the lowest bit of the weight w, sign excluded. *)
Definition weight_bits (w : Qc) (b : Z) : Prop :=
  (w = qz 0 /\ b = 0%Z) \/
  (w <> qz 0 /\ exists i f, b = (i + f)%Z /\ (qabs w < pow2 i)%Qc /\ (forall i', (qabs w < pow2 i')%Qc -> (i <= i')%Z) /\
     (exists n, w = (qz n * pow2 (- f))%Qc) /\ forall f', (exists n, w = (qz n * pow2 (- f'))%Qc) -> (f <= f')%Z).
(** [b] is the least number of bits, not counting a sign, that holds the magnitude of every value in P on the grid 2^-r. *)
Definition magnitude_bits (r : Z) (P : Qc -> Prop) (b : Z) : Prop :=
  (0 <= b)%Z /\ (forall w, P w -> (qabs w < pow2 (b - r))%Qc) /\
  forall b', (0 <= b')%Z -> (forall w, P w -> (qabs w < pow2 (b' - r))%Qc) -> (b <= b')%Z.
