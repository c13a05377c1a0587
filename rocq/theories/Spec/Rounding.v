(** Vocabulary for C53 and C81: the rounding modes a configuration can name. *)
From Coq Require Import ZArith List String.
From Verif Require Import Model.Conf.
Import ListNotations.
Open Scope Z_scope.

(** utils.py:70-75 *)
Definition rounding_names : list (string * Z) :=
  [("standard_round", 0); ("stochastic_round", 1); ("fast_uniform_noise_injection", 2); ("floor", 3)]%string.
(** Entry v of a configuration asks for rounding mode z: modes have names and
    numbers, no entry means truncation, other names the mode no quantizer knows. *)
Definition asks_rounding (v : option pval) (z : pval) : Prop :=
  match v with
  | None => z = VInt 3
  | Some (VStr s) => (exists k, In (s, k) rounding_names /\ z = VInt k) \/ (~ In s (map fst rounding_names) /\ z = VInt (-1))
  | Some w => z = w
  end.

(** A bias of shape [bs] can do the rounding of quantizers whose bitwidths have
    shape [qs]: there is one bitwidth, or one for every bias entry, sitting in
    the dimension that says which entry is meant (the last for [loc] -1, the
    first for [loc] 1). *)
Definition bias_covers (bs qs : list nat) (loc : Z) : Prop :=
  exists n, bs = [n] /\
    (Forall (eq 1%nat) qs \/ loc = -1 /\ (exists ones, Forall (eq 1%nat) ones /\ qs = (ones ++ [n])%list) \/ loc = 1 /\ (exists ones, Forall (eq 1%nat) ones /\ qs = n :: ones)).
