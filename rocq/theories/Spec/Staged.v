(** Registration layer by layer: the store of quantizers at the moment the types
    of a layer are derived. *)
From Coq Require Import ZArith Qcanon List Bool String.
From Verif Require Import Base.Num Base.Tensor Model.FixedPoint Model.Precision Model.Register.
Import ListNotations.

(** Registering the layers in order, starting from [start], layer n gets the
    given types and table size (lookup layers get none), and [st] is the store
    afterwards. *)
Definition registered_at (fuel : nat) (net : pnet) (names : list string) (start : pst * ovs) (n : nat) (types : list (string * string)) (size : option Z) (st : pst) : Prop :=
  exists before ov, register_layers fuel net names None (seq 0 n) start = Ok (before, ov) /\
    match nth_error net n with
    | Some (NLut _, _) => st = before
    | _ => layer_config fuel net n before None = Ok ((types, size), st)
    end.

(** Registration does not change which quantizers treat all elements alike. *)
Definition same_fusion (net : pnet) (s s' : pst) : Prop :=
  forall m q ps o o', nth_error net m = Some (NFpq q, ps) -> nth_error s q = Some o -> nth_error s' q = Some o' -> heterogeneous o' = heterogeneous o.
