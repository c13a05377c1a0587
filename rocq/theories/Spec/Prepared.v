(** Specification vocabulary for models ready to be converted, however their ranges came about. *)
From Coq Require Import ZArith Qcanon List Bool.
From Verif Require Import Base.Num Base.Tensor Model.Quantizer Model.Layers Model.Graph Model.Trace Spec.Fixed Spec.Quant Spec.Layer Spec.Trace.
Import ListNotations.
Local Open Scope nat_scope.

(** Every quantized layer has stopped recording and holds a finite range on its grid. *)
Definition prepared (m : klayer layer) (st : store) : Prop :=
  forall i, In i (top_layers m) -> exists o, nth_error st i = Some o /\ o_record o = false /\ calibrated (l_paq (o_layer o)).

(** The ends of the ranges have at most 23 bits, so that sums of two of them are single precision numbers. *)
Definition roomy (q : hgq) : Prop :=
  forall g, g < length (data (q_fbw q)) -> forall r a b, frac_bits q g r -> holds_range q g a b ->
    (-32 <= r <= 93)%Z /\ (qabs a <= pow2 (22 - r))%Qc /\ (qabs b <= pow2 (22 - r))%Qc.
