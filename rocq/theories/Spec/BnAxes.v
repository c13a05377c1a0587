(** Specification of the parameters of a batch normalisation layer over several axes (C87). *)
From Coq Require Import Arith List.
From Verif Require Import Base.Tensor.
Import ListNotations.
Local Open Scope nat_scope.

(** The sizes of the parameters along the dimensions of a sample: all of a dimension that is kept, one position otherwise. *)
Definition kept (keep : list bool) (dims : list nat) : list nat := map (fun kd : bool * nat => if fst kd then snd kd else 1) (combine keep dims).

(** The parameter of element [e] (row by row) of a sample: its position among the kept coordinates, row by row. *)
Fixpoint channel (keep : list bool) (dims : list nat) (e : nat) : nat :=
  match keep, dims with
  | true :: ks, _ :: ds => e / prodn ds * prodn (kept ks ds) + channel ks ds (e mod prodn ds)
  | false :: ks, _ :: ds => channel ks ds (e mod prodn ds)
  | _, _ => 0
  end.

(** The elements of a batch (samples one after the other) that belong to channel [c]. *)
Definition of_channel {A} (keep : list bool) (dims : list nat) (c : nat) (xs : list A) : list A :=
  map snd (filter (fun pv => Nat.eqb (channel keep dims (fst pv mod prodn dims)) c) (combine (seq 0 (length xs)) xs)).
