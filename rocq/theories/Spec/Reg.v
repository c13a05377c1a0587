(** Sums over the multiplications of a layer: each is a pair (input position, kernel position). *)
From Coq Require Import ZArith Qcanon List Bool.
From Verif Require Import Base.Num.
Import ListNotations.

Fixpoint total (f : nat -> nat -> Qc) (macs : list (nat * nat)) : Qc :=
  match macs with [] => qz 0 | ab :: r => (f (fst ab) (snd ab) + total f r)%Qc end.

(** The multiplications whose kernel (input) position is in [P]. *)
Definition with_weight (P : nat -> bool) (macs : list (nat * nat)) := filter (fun ab => P (snd ab)) macs.
Definition with_input (P : nat -> bool) (macs : list (nat * nat)) := filter (fun ab => P (fst ab)) macs.
