(** Networks of passive layers: what is assumed of them, and where a value comes from. *)
From Coq Require Import ZArith Qcanon List.
From Verif Require Import Base.Num Base.Tensor Model.Layers Model.Passive Model.PassiveNet Spec.Layer Proofs.PassiveP.
Import ListNotations.
Local Open Scope nat_scope.

(** Every quantized layer is calibrated, the widths declared by signatures are not negative every pooling window looks at something and
    nothing is concatenated along the batch axis. *)
Definition measured (net : bnet) : Prop := forall b, In b net ->
  match b_kind b with
  | BQuant l => quantizer_shape (l_paq l) (l_out l) /\ calibrated (l_paq l)
  | BSignature bits _ => Forall (fun w => (0 <= w)%Z) (data bits)
  | BPool p _ => pool_valid p
  | BConcat axis => axis <> 0
  | _ => True
  end.
(** Concatenations are called once, on at least two layers. *)
Definition concats_once (net : bnet) : Prop := forall b, In b net ->
  match b_kind b with BConcat _ => exists ns, b_calls b = [Many ns] /\ 2 <= length ns | _ => True end.
(** Layer m is not passive: values start there. *)
Definition is_source (net : bnet) (m : nat) : Prop :=
  exists b, nth_error net m = Some b /\ match b_kind b with BQuant _ | BSignature _ _ => True | _ => False end.
(** The outputs of the quantized layers and signatures have their shapes. *)
Definition shaped (net : bnet) (src : nat -> tensor Qc) : Prop := forall m b, nth_error net m = Some b ->
  match b_kind b with
  | BQuant l => shape (src m) = 1 :: l_out l /\ wf_tensor (src m)
  | BSignature _ inp => shape (src m) = 1 :: inp /\ wf_tensor (src m)
  | _ => True
  end.
