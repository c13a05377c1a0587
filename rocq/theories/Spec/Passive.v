(** What "the bitwidth of the value that reaches a position" means, independently of how
    the layers compute it. *)
From Coq Require Import ZArith Qcanon List Permutation.
From Verif Require Import Base.Num Base.Tensor.
Import ListNotations.
Local Open Scope nat_scope.

(** Element p (row major) of sample j of a batch. *)
Definition at_ {A} (d : A) (t : tensor A) (j p : nat) : A := nth (j * prodn (tl (shape t)) + p) (data t) d.

(** Shapes that agree in every axis but a. *)
Definition agree_off (a : nat) (s s' : list nat) : Prop :=
  List.length s = List.length s' /\ forall k, k <> a -> nth k s 0 = nth k s' 0.

(** Concatenating inputs of lengths ws along an axis followed by [inner] elements: position e
    with coordinate c on that axis comes from position p of input i, whose coordinate is c
    minus the lengths of the inputs before it; the other coordinates (o, q) are unchanged. *)
Definition concat_source (ws : list nat) (inner e i p : nat) : Prop :=
  exists o c q, let w := fold_right Nat.add 0 ws in let before := fold_right Nat.add 0 (firstn i ws) in
    i < List.length ws /\ q < inner /\ before <= c < before + nth i ws 0 /\
    e = (o * w + c) * inner + q /\ p = (o * nth i ws 0 + (c - before)) * inner + q.

(** b bits are enough for a set of values: some grid 2^-f carries them and they are among
    2^b consecutive multiples. *)
Definition bits_suffice (b : Z) (P : Qc -> Prop) : Prop :=
  exists f lo, forall x, P x -> exists z, x = (qz z * pow2 (- f))%Qc /\ (lo <= z < lo + 2 ^ b)%Z.

(** Transposition: dims orders all axes of shape s (counted from 1). *)
Definition orders_axes (dims s : list nat) : Prop := Permutation dims (seq 1 (List.length s)).
(** Row-major position of a multi-index. *)
Fixpoint position (s idx : list nat) : nat := match s, idx with _ :: s', i :: idx' => i * prodn s' + position s' idx' | _, _ => 0 end.
Definition picked (dims l : list nat) : list nat := map (fun d => nth (d - 1) l 0) dims.

(** Coordinates along one axis of length n that a window of size k starting at
    o*s - pad covers ("VALID": pad = 0; "SAME": half of the missing elements,
    rounded down, are in front). *)
Definition front (same : bool) (n k s : nat) : nat := if same then (((n + s - 1) / s - 1) * s + k - n) / 2 else 0.
Definition covers (same : bool) (n k s o a : nat) : bool := (Nat.leb (o * s) (a + front same n k s) && Nat.ltb (a + front same n k s) (o * s + k))%bool.
(** Value x is the mean of the list. *)
Definition is_mean (l : list Qc) (x : Qc) : Prop := l <> [] /\ (x * qz (Z.of_nat (List.length l)) = fold_right Qcplus (qz 0) l)%Qc.
