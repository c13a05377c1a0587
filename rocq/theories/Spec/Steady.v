(** Layers whose proxies do not overflow on the data they were calibrated with.
    Independent of the conversion. *)
From Coq Require Import ZArith Qcanon List Bool String.
From Verif Require Import Base.Num Base.Tensor Model.FixedPoint Model.Quantizer Model.Layers Model.Trace Spec.Trace.
Import ListNotations.
Local Open Scope nat_scope.

(** A condition on ReLU layers only.  Every unit has been positive at some point
    of the calibration, and either the deployed layer rounds down (always so for
    the rounding strategy 'auto'), or some unit has been negative and no recorded
    minimum is the negative of a power of two. *)
Definition steady (o : hobj) : Prop :=
  l_relu (o_layer o) = true ->
  let q := l_paq (o_layer o) in
  let groups := List.length (data (q_fbw q)) in
  (forall g mn mx, g < groups -> holds_range q g mn mx -> (qz 0 < mx)%Qc) /\
  (rnd_mode (o_layer o) = "TRN"%string \/
   ((exists g mn mx, g < groups /\ holds_range q g mn mx /\ (mn < qz 0)%Qc) /\
    forall g mn mx j, g < groups -> holds_range q g mn mx -> mn <> (- pow2 j)%Qc)).
