(** C56: the output of the standalone batch-norm layer, element by element. *)
From Coq Require Import ZArith QArith Qcanon List Bool Lia Arith.
From Verif Require Import Base.Num Base.NumFacts Base.Tensor Base.Compute Model.FixedPoint Model.Quantizer Model.Layers Model.BatchNorm
  Spec.Fixed Spec.Quant Spec.Layer Spec.Trace Spec.BnLayer Spec.BnAxes Proofs.QuantizerP Proofs.CoverP Proofs.BnAxesP Proofs.BnElemP.
Import ListNotations.
Local Open Scope nat_scope.

(** C56: at inference, over any axes and with bitwidths shared in any way, every element of the output is one quantized scale times the
    input plus one quantized offset, quantized again: both parameters are those of the element's channel, and the offset and the output
    both take the element's own bitwidth, so that elements of one channel can have different offsets. *)
Theorem C56_elements : forall rsqrt pw ln2 l n dims keep bw kb x rec n1 n2 n3 y l', let s := 1 :: kept keep dims in
  length keep = length dims -> shape (m_gamma l) = s -> shape (m_beta l) = s -> shape (m_mean l) = s -> shape (m_var l) = s -> shape x = n :: dims ->
  shape (q_fbw (m_kq l)) = 1 :: kb -> bshape kb (kept keep dims) = Some (kept keep dims) ->
  shape (q_fbw (m_paq l)) = 1 :: bw -> bshape bw dims = Some dims -> clip_ok (m_paq l) ->
  bnorm_forward rsqrt pw ln2 l x false rec n1 n2 n3 = Ok (y, l') ->
  shape y = n :: dims /\
  forall i e rk r, i < n -> e < prodn dims ->
    let c := channel keep dims e in let at_ t := nth c (data t) (qz 0) in
    let ker := (at_ (m_gamma l) * rsqrt (at_ (m_var l) + m_eps l))%Qc in
    frac_bits (clip_fbw (m_kq l)) (bidx kb (kept keep dims) c) rk -> frac_bits (clip_fbw (m_paq l)) (bidx bw dims e) r ->
    exists scale offset, quantized (m_kq l) rk ker scale /\ quantized (m_paq l) r (at_ (m_beta l) - at_ (m_mean l) / ker)%Qc offset /\
      quantized (m_paq l) r (scale * nth (i * prodn dims + e) (data x) (qz 0) + offset)%Qc (nth (i * prodn dims + e) (data y) (qz 0)).
Proof.
  intros rsqrt pw ln2 l n dims keep bw kb x rec n1 n2 n3 y l' s L Sg Sb Sm Sv Sx Sk Bk Sp Bp Hcl E.
  destruct (bnorm_elements rsqrt pw ln2 l n dims keep bw kb x rec n1 n2 n3 y l' L Sg Sb Sm Sv Sx Sk Bk Sp Bp Hcl E) as [Sy N]. split; [exact Sy|].
  intros i e rk r Hi He. cbv zeta. intros Fk Fr. specialize (N i e Hi He). cbv zeta in N. do 2 eexists. split; [apply qval_quantized; exact Fk|]. split; [apply qval_quantized; exact Fr|].
  rewrite N. apply qval_quantized. exact Fr.
Qed.
Print Assumptions C56_elements.

(** Two samples of shape (2, 2) over the last axis, one bitwidth per row of the output: gamma 3 and 1, rsqrt 1/2, beta 1/4, means 0 and 1;
    row 0 rounds to integers, row 1 to quarters, so channel 0 has offset 0 in row 0 and 1/4 in row 1. *)
Definition el_bn : bnorm := mkN (mkT [1; 1; 2] [qz 3; qz 1]) (mkT [1; 1; 2] [Q2Qc (1 # 4); Q2Qc (1 # 4)]) (mkT [1; 1; 2] [qz 0; qz 1]) (mkT [1; 1; 2] [qz 1; qz 1])
  (qz 3) (Q2Qc (99 # 100)) [0; 1]%Z (hgq_build (mkT [1; 1; 1] [qz 1]) None 0 true (Some (qz (-23), qz 23))) (hgq_build (mkT [1; 2; 1] [qz 0; qz 2]) None 0 true None).
Definition el_x : tensor Qc := mkT [2; 2; 2] (map (fun i => qz (Z.of_nat i)) (seq 0 8)).
Example C56_elements_ex : let keep := [false; true] in let dims := [2; 2] in let s := 1 :: kept keep dims in
  shape (m_gamma el_bn) = s /\ shape (m_mean el_bn) = s /\ shape el_x = 2 :: dims /\
  bshape [1; 1] (kept keep dims) = Some (kept keep dims) /\ bshape [2; 1] dims = Some dims /\ clip_ok (m_paq el_bn) /\
  map (channel keep dims) (seq 0 4) = [0; 1; 0; 1] /\ map (bidx [2; 1] dims) (seq 0 4) = [0; 0; 1; 1] /\
  frac_bits (clip_fbw (m_paq el_bn)) 0 0 /\ frac_bits (clip_fbw (m_paq el_bn)) 1 2 /\
  match bnorm_forward (fun _ => Q2Qc (1 # 2)) (fun _ => qz 0) (qz 0) el_bn el_x false false (fun _ => qz 0) (fun _ => qz 0) (fun _ => qz 0) with
  | Ok (y, _) => map this (data y) | Raise => [] end = [0; -1; 13 # 4; -1 # 4; 6; 1; 37 # 4; 7 # 4]%Q.
Proof.
  repeat (split; [reflexivity|]). split; [exact (nearest_even_ex (qz 0))|]. split; [exact (nearest_even_ex (qz 2))|].
  vm_compute. reflexivity.
Qed.
