(** Vocabulary for programs over configurations. *)
From Coq Require Import ZArith List Bool String.
From Verif Require Import Model.Conf.
Import ListNotations.

(** The keys of a dictionary. *)
Definition has_key (d : dict) (k : string) : Prop := exists v, In (k, v) d.
(** The contents of object a. *)
Definition obj (st : cstate) (a : nat) : dict := nth a (dicts st) [].

(** The dictionaries a statement changes or hands over to the library. *)
Definition writes (o : op) : list nat := match o with OWrite a _ _ | ODel a _ => [a] | _ => [] end.
Definition lends (o : op) : list nat := match o with OLayer _ _ (Some a) => [a] | _ => [] end.
Definition sets (o : op) : list nat := match o with OSet _ (ADict a) => [a] | _ => [] end.
(** No statement of the program writes to object a or gives it to a layer. *)
Definition leaves_alone (a : nat) (h : list op) : Prop := Forall (fun o => ~ In a (writes o) /\ ~ In a (lends o)) h.
(** No statement calls the setter of w. *)
Definition no_set (w : which) (h : list op) : Prop := Forall (fun o => forall v, o <> OSet w v) h.
(** No dictionary is written to after it has been passed to a setter; the
    initial defaults (objects 0 and 1) are not written to at all. *)
Fixpoint tidy (given : list nat) (h : list op) : Prop :=
  match h with
  | [] => True
  | o :: h' => (forall a, In a (writes o) -> ~ In a given) /\ tidy (sets o ++ given) h'
  end.
(** No activation layer holds object a as its configuration. *)
Definition not_rewritten (a : nat) (st : cstate) : Prop := forall l, In l (clayers st) -> c_act l = true -> c_paq l <> a.
(** References of layers and defaults point to existing objects. *)
Definition wfc (st : cstate) : Prop :=
  (def_kq st < List.length (dicts st))%nat /\ (def_paq st < List.length (dicts st))%nat /\
  (forall l, In l (clayers st) -> (c_paq l < List.length (dicts st))%nat).
