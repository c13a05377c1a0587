(** Specification of convolutions with any number of spatial dimensions (C60). *)
From Coq Require Import ZArith Qcanon List Bool.
From Verif Require Import Base.Num Spec.Bops.
Import ListNotations.
Local Open Scope nat_scope.

(** The sum of f over all lists of coordinates below [sizes]. *)
Fixpoint sum_over (sizes : list nat) (f : list nat -> Qc) : Qc :=
  match sizes with [] => f [] | n :: ns => qsum_to n (fun i => sum_over ns (fun r => f (i :: r))) end.

(** Position of coordinates in memory, last coordinate fastest: ((i1 n2 + i2) n3 + i3) ... *)
Definition row_major (sizes is : list nat) : nat := fold_left (fun acc ni => acc * fst ni + snd ni) (combine sizes is) 0.

(** Coordinates inside an array. *)
Definition inside (sizes : list nat) (is : list Z) : bool := forallb (fun ni => ((0 <=? snd ni) && (snd ni <? Z.of_nat (fst ni)))%Z) (combine sizes is).

(** Values of a sample with zeros outside, channels last and channels first. *)
Definition padded_last (x : list Qc) (sizes : list nat) (cin : nat) (is : list Z) (c : nat) : Qc :=
  if inside sizes is then nth (row_major sizes (map Z.to_nat is) * cin + c) x (qz 0) else qz 0.
Definition padded_first (x : list Qc) (sizes : list nat) (is : list Z) (c : nat) : Qc :=
  if inside sizes is then nth (c * fold_right Nat.mul 1 sizes + row_major sizes (map Z.to_nat is)) x (qz 0) else qz 0.
