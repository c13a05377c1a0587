(** Runs of a proxy network in which no quantizer overflows.  Independent of the
    precision derivation. *)
From Coq Require Import ZArith Qcanon List Bool String.
From Verif Require Import Base.Num Base.Tensor Model.FixedPoint Model.Precision Model.Lut Spec.Fixed Spec.Precision Spec.NetEval.
Import ListNotations.
Open Scope Z_scope.

(** x, rounded to the resolution of the format c, is a number of the format.
    (Formats without bits turn everything into zero; they are never left.) *)
Definition in_format (o : fpq unit) (c : qcfg) (x : Qc) : Prop :=
  bits c = 0 \/ exists n, rounds_to (rnd_name o) (x * pow2 (bits c - ints c))%Qc n /\ code (kn c) (bits c) n.

(** [out]: the outputs of all layers.  Every element a quantizer reads is, after
    rounding, a number of the format it applies to it. *)
Definition quiet (net : pnet) (s : pst) (geo : nat -> list recipe) (out : list (list Qc)) : Prop :=
  forall m q p r j o c xs x, nth_error net m = Some (NFpq q, [p]) -> In r (geo m) -> r_src r = [Some (0%nat, j)] ->
    nth_error s q = Some o -> nth_error (data (cfgs o)) (r_ch r) = Some c -> nth_error out p = Some xs -> nth_error xs j = Some x -> in_format o c x.

(** Quantizers with proper formats whose overflow mode leaves all numbers of the
    format alone (not SAT_SYM, which changes the most negative one). *)
Definition plain_fpq (o : fpq unit) : Prop := legal_fpq o /\ sat_name o <> "SAT_SYM"%string.

(** Shrinking a quantizer with formats o to the precision (k, i, f) takes no
    integer bits from an element that has bits, but fewer than f fractional ones. *)
Definition shrinks_evenly (o : fpq unit) (t : kif) : Prop :=
  let '(k, i, f) := t in 0 <= i + f /\ forall c, In c (data (cfgs o)) -> bits c = 0 \/ ints c <= k + i \/ f <= bits c - ints c.

(** The entries of lookup tables are of the format the layer declares. *)
Definition proper_tables (net : pnet) (tables : nat -> option ulut) : Prop :=
  forall n k i f ps l, nth_error net n = Some (NLut (k, i, f), ps) -> tables n = Some l -> Forall (fits k i f) (lut_table l).
