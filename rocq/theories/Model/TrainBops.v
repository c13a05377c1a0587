(** The bit operations a layer reports and penalises while it is trained or called
    (HDense.forward, HConv.forward). *)
From Coq Require Import ZArith Qcanon List Bool.
From Verif Require Import Base.Num Base.Tensor Model.Quantizer Model.Layers Model.Bops.
Import ListNotations.

(** get_bits with a quantized reference, quantizer.py:219-231: integer bits, reduced over the
    shared axes without keepdims. *)
Definition ref_int_bits (skip : option (list Z)) (ref : tensor Qc) : tensor zext :=
  let ib := tmap (fun w => zext_add (floor_log2 (qabs w)) 1) ref in
  match skip_truthy skip with
  | Some ds => treduce zext_max ZNegInf (axis_flags (List.length (shape ref)) ds) false ib
  | None => ib
  end.

(** _kernel_bw, base.py:169-175 (the value; scale_grad is the identity on values). *)
Definition trained_kernel_bw (kq : hgq) (qk : tensor Qc) : result (tensor Z) :=
  rbind (bmap2 ZNegInf (qz 0) (fun i f => relu_z (zext_add i (qround_even f))) (ref_int_bits (q_skip kq) qk) (q_fbw kq))
    (fun b => broadcast_to 0%Z b (shape qk)).

Section T.
  Variable pw : Qc -> Qc.
  Variable ln2 : Qc.

  (** The sum of HDense.forward (dense.py:48-59) and HConv.forward (conv.py:102-114) at inference, before the
      scaling of conv.py:110; [prev] is the layer it reads.  jit_forward quantizes the kernel by a call. *)
  Definition called_bops (prev l : hlayer) : result Z :=
    match l_op l with
    | Fn _ => Ok 0%Z
    | Linear ts kernel kq _ _ =>
        rbind (call pw ln2 kq kernel false false (fun _ => qz 0)) (fun r =>
        rbind (act_bw prev) (fun ib =>
        rbind (trained_kernel_bw (snd r) (fst r)) (fun kb => Ok (zsum (mac_bits ts (data ib) (data kb))))))
    end.

  (** The whole value of self.bops: conv.py:110 scales by parallel_factor / total_channels. *)
  Definition called_bops_scaled (conv : option (Z * list nat)) (prev l : hlayer) : result Qc :=
    rbind (called_bops prev l) (fun b =>
    match conv with
    | None => Ok (qz b)
    | Some (parallel_factor, output_shape) =>
        Ok (qz (b * parallel_factor) / qz (Z.of_nat (total_channels output_shape)))%Qc
    end).
End T.
