(** Where the configuration of a layer may be stored: on the layer itself if it
    is a quantizer, else on a quantizer ahead of it, else on one behind it. *)
From Coq Require Import List String.
From Verif Require Import Model.Precision Model.Register.
Import ListNotations.

Definition quantizer_at (net : pnet) (m q : nat) : Prop := exists ps, nth_error net m = Some (NFpq q, ps).
Definition plain_at (net : pnet) (m : nat) : Prop := forall q, ~ quantizer_at net m q.
(** m takes the output of n as an input. *)
Definition feeds (net : pnet) (n m : nat) : Prop := exists kd ps, nth_error net m = Some (kd, ps) /\ In n ps.

(** Quantizer q is reached from layer n along the data flow without crossing
    another quantizer. *)
Inductive ahead (net : pnet) : nat -> nat -> Prop :=
| ahead_next n m q : feeds net n m -> quantizer_at net m q -> ahead net n q
| ahead_via n m q : feeds net n m -> plain_at net m -> ahead net m q -> ahead net n q.
(** The same against the data flow. *)
Inductive behind (net : pnet) : nat -> nat -> Prop :=
| behind_last n m q : feeds net m n -> quantizer_at net m q -> behind net n q
| behind_via n m q : feeds net m n -> plain_at net m -> behind net m q -> behind net n q.

Definition stored_on (net : pnet) (n q : nat) : Prop :=
  quantizer_at net n q \/
  (plain_at net n /\ (ahead net n q \/ ((forall q', ~ ahead net n q') /\ behind net n q))).

(** What quantizer q has stored about the layer of that name. *)
Definition look (o : ovs) (q : nat) (name : string) : option entry :=
  match nth_error o q with Some (Some d) => dget d name | _ => None end.
