(** When a network is exact in single precision. *)
From Coq Require Import ZArith Qcanon List Bool String.
From Verif Require Import Base.Num Base.Tensor Model.FixedPoint Model.Quantizer Model.Layers Model.Graph Model.Trace
  Spec.Layer Spec.FloatLayer.
Import ListNotations.
Local Open Scope nat_scope.

(** Calling a model at inference makes a sequence of calls of its layers, each on some input tensors.  The values do
    not depend on the registers, so the objects are those of one store. *)
Definition noting (pw : Qc -> Qc) (ln2 : Qc) (st : store) (x : layer) (ins : list (list sample)) (log : list (layer * list (list sample)))
  : result (list sample * list (layer * list (list sample))) :=
  rbind (call_layer pw ln2 x ins st) (fun r => Ok (fst r, log ++ [(x, ins)])).
(** Every call made on the batch B satisfies P. *)
Definition every_call (pw : Qc -> Qc) (ln2 : Qc) (st : store) (P : layer -> list (list sample) -> Prop) (m : klayer layer) (B : list (list sample)) : Prop :=
  forall ys log, run (noting pw ln2 st) m B [] = Ok (ys, log) -> Forall (fun c => P (fst c) (snd c)) log.

(** A call of a layer of the model is exact in single precision: weights, products, sums and quantization. *)
Definition layer_call_exact (pw : Qc -> Qc) (ln2 : Qc) (st : store) (x : layer) (ins : list (list sample)) : Prop :=
  match snd x with
  | KH i | KQuant i => forall o xs, nth_error st i = Some o -> zip_samples ins = Ok xs ->
      parameters_exact (o_layer o) /\ exists w b, quantized_weights pw ln2 (o_layer o) w b /\ layer_exact (o_layer o) w b xs
  | _ => True
  end.

(** The same for what the proxy model has in its place; a Signature must promise at most 23 bits. *)
Definition proxy_call_exact (pw : Qc -> Qc) (ln2 : Qc) (st : store) (S : string) (x : layer) (ins : list (list sample)) : Prop :=
  match snd x with
  | KH i | KQuant i => forall o xs p, nth_error st i = Some o -> zip_samples ins = Ok xs -> to_proxy pw ln2 (o_layer o) S = Ok p ->
      parameters_exact (o_layer o) /\ exists w b, deployed_weights pw ln2 (o_layer o) w b /\ proxy_exact (o_layer o) p w b xs
  | KSig c _ => Forall (fun f => (bits f <= 23)%Z /\ (-100 <= bits f - ints f <= 100)%Z) (data c)
  | _ => True
  end.
