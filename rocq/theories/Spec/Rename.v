(** The layers of a flat model. *)
From Coq Require Import List.
From Verif Require Import Model.Graph.
Import ListNotations.

Definition layers_of {L} (m : klayer L) : list L :=
  match m with
  | Leaf _ => []
  | Sub _ nodes _ => flat_map (fun n => match fst n with Leaf x => [x] | Sub _ _ _ => [] end) nodes
  end.
