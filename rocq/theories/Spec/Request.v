(** Which quantizers the output of a layer ends up in, through layers that only
    move numbers around. *)
From Coq Require Import ZArith List String.
From Verif Require Import Base.Num Base.Tensor Model.FixedPoint Model.Precision Spec.Precision Spec.Register.
Import ListNotations.
Open Scope Z_scope.

Definition moves (kd : pkind) : Prop := kd = NConcat \/ kd = NReshape.

(** [leads net n q]: the quantizer with variable q reads layer n, directly or
    through concatenations and reshapes. *)
Inductive leads (net : pnet) : nat -> nat -> Prop :=
| leads_direct n m q ps : feeds net n m -> nth_error net m = Some (NFpq q, ps) -> leads net n q
| leads_through n m kd ps q : feeds net n m -> nth_error net m = Some (kd, ps) -> moves kd -> leads net m q -> leads net n q.

(** Everything that reads layer n in the end is a quantizer. *)
Inductive quantized (net : pnet) : nat -> Prop :=
| quantized_node n m : feeds net n m ->
    (forall r kd ps, feeds net n r -> nth_error net r = Some (kd, ps) -> (exists q, kd = NFpq q) \/ (moves kd /\ quantized net r)) ->
    quantized net n.

(** Extra fractional bits a rounding mode may look at. *)
Definition looks_at (R : string) : Z := if String.eqb R "TRN" then 0 else if String.eqb R "RND" then 1 else 2.
(** Quantizers that do not notice integer bits beyond their own. *)
Definition wraps (o : fpq unit) : Prop := sat_name o = "WRAP"%string \/ sat_name o = "WRAP_SM"%string.
