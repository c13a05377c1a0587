(** Names of converted layers. *)
From Coq Require Import List String.
From Verif Require Import Model.Convert.
Import ListNotations.
Local Open Scope nat_scope.

(** The name layer object y asks for after the layers in [before] (object and name, in order) were named: the one it was given last,
    or its own; its own if it is a new object each time. *)
Definition asks {L} (uid : L -> nat) (names : nat -> string * bool) (before : list (L * string)) (y : L) (r : string) : Prop :=
  (snd (names (uid y)) = false /\ exists pre z post, before = pre ++ (z, r) :: post /\ uid z = uid y /\ forall w n, In (w, n) post -> uid w <> uid y) \/
  ((snd (names (uid y)) = true \/ forall w n, In (w, n) before -> uid w <> uid y) /\ r = fst (names (uid y))).
(** Asking for r after [before] gives n: r itself if no layer has it, else r followed by the first free number. *)
Definition taken {L} (before : list (L * string)) (r n : string) : Prop :=
  (~ In r (map snd before) -> n = r) /\
  (In r (map snd before) -> exists i, n = suffixed r i /\ ~ In n (map snd before) /\ forall j, j < i -> In (suffixed r j) (map snd before)).
