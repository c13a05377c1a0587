(** Layers and their proxies at inference in IEEE single precision: Model/Layers.v with the arithmetic of
    Model/Float32.v (src/HGQ/layers/dense.py:61-72, conv.py:116-127, misc.py:22-24, 53-55, 64-67;
    src/HGQ/proxy/convert.py:225-331; src/HGQ/proxy/fixed_point_quantizer.py:114-129, 178-182).

    The order in which tf.matmul and tf.nn.convolution add the products is not specified; XLA and the keras
    layers of the proxy need not use the same one.  Overflow and the sign of zero are not modelled, and the
    bitwidths derived from the registers are those of the exact model. *)
From Coq Require Import ZArith Qcanon List Bool String Permutation.
From Verif Require Import Base.Num Base.Tensor Model.FixedPoint Model.Quantizer Model.Layers Model.Float32.
Import ListNotations.
Local Open Scope Z_scope.

(** The values a float32 dot product may return: any order, any association, with or without fused
    multiply-add (dense.py:65, conv.py:92-100). *)
Inductive sums_to : list (Qc * Qc) -> Qc -> Prop :=
| Sum_none : sums_to [] (qz 0)
| Sum_one x w : sums_to [(x, w)] (rn32 (x * w)%Qc)
| Sum_fma x w ps v : sums_to ps v -> sums_to ((x, w) :: ps) (rn32 (x * w + v)%Qc)
| Sum_add ps qs u v : sums_to ps u -> sums_to qs v -> sums_to (ps ++ qs) (rn32 (u + v)%Qc)
| Sum_perm ps qs v : Permutation ps qs -> sums_to ps v -> sums_to qs v.

(** An implementation of the dot product.
    (tf.matmul at dense.py:65, tf.nn.convolution at conv.py:92-100) *)
Definition accumulator (acc : list (Qc * Qc) -> Qc) : Prop := forall ps, sums_to ps (acc ps).

(** __call__ at inference, element by element, quantizer.py:137-143, 152-169 *)
Definition call32 (q : hgq) (x : tensor Qc) : result (tensor Qc) :=
  bmap2 (qz 0) (qz 0) (fun v f => forward32 (Z.eqb (q_strategy q) 3) (qround_even f) v) x (q_fbw (clip_fbw q)).

(** bias_forward at inference, quantizer.py:181-209 *)
Definition bias_forward32 (q : hgq) (x : tensor Qc) (channel_loc : Z) : result (tensor Qc) :=
  rbind (bias_dims channel_loc (List.length (shape (q_fbw q)))) (fun dims =>
  bmap2 (qz 0) (qz 0) (fun v f => forward32 (Z.eqb (q_strategy q) 3) (qround_even f) v) x (reduce_max_q dims (q_fbw q))).

(** tf.nn.bias_add, dense.py:68, conv.py:123 *)
Definition bias_add32 (loc : Z) (out : list nat) (b : list Qc) (z : list Qc) : list Qc :=
  map (fun ez => rn32 (snd ez + nth (chan loc out (fst ez)) b (qz 0))%Qc) (combine (seq 0 (List.length z)) z).

(** RND_MAP and SAT_MAP (fixed_point_quantizer.py:95-111) for the modes used by ProxyLayerXFormer (convert.py:267-276). *)
Definition RND_MAP32 (s : string) : option (Qc -> Qc) :=
  if String.eqb s "RND" then Some RND32 else if String.eqb s "TRN" then Some TRN32 else None.
Definition SAT_MAP32 (s : string) : option (Qc -> Z -> Z -> Qc) :=
  if String.eqb s "SAT" then Some SAT32 else if String.eqb s "WRAP" then Some WRAP32 else None.

(** call of FixedPointQuantizer, fixed_point_quantizer.py:178-182 *)
Definition fpq_call32 {O} (q : fpq O) (x : tensor Qc) : result (tensor Qc) :=
  match RND_MAP32 (rnd_name q), SAT_MAP32 (sat_name q) with
  | Some rnd, Some sat => bmap2 (qz 0) (mkCfg 0 0 0) (fun v c => gfixed32 rnd sat (kn c) (bits c) (ints c) v) x (cfgs q)
  | _, _ => Raise
  end.

Section Acc.
  Variable acc : list (Qc * Qc) -> Qc.

  (** tf.matmul, tf.nn.convolution (dense.py:65, conv.py:92-100) *)
  Definition linop32 (ts : taps) (w : list Qc) (x : list Qc) : list Qc :=
    map (fun ps => acc (map (fun ab => (nth (fst ab) x (qz 0), nth (snd ab) w (qz 0))) ps)) ts.

  (** jit_forward before the quantizer, dense.py:64-68, conv.py:119-123; misc.py:22-24, 53-55, 64-67 *)
  Definition pre_activation32 (l : hlayer) (xs : list (list (list Qc))) : result (list (list Qc)) :=
    match l_op l with
    | Fn g => Ok (map g xs)
    | Linear ts kernel kq bias bias_loc =>
        rbind (call32 kq kernel) (fun w =>
        let zs := map (fun x => linop32 ts (data w) (hd [] x)) xs in
        match bias with
        | None => Ok zs
        | Some b => rbind (bias_forward32 (l_paq l) b bias_loc) (fun qb =>
            Ok (map (bias_add32 (l_loc l) (l_out l) (data qb)) zs))
        end)
    end.
  (** jit_forward, dense.py:61-72, conv.py:116-127 *)
  Definition hforward32 (l : hlayer) (xs : list (list (list Qc))) : result (list (list Qc)) :=
    rbind (pre_activation32 l xs) (fun zs =>
    rbind (call32 (l_paq l) (batch_tensor (l_out l) zs)) (fun y =>
    let ys := samples (l_out l) y in Ok (if l_relu l then map (map relu) ys else ys))).

  (** fused_qbias, base.py:215-236 *)
  Definition fused_qbias32 (l : hlayer) (b : tensor Qc) : result (tensor Qc) :=
    let q := l_paq l in
    rbind (bias_forward32 q b (l_loc l)) (fun bias =>
    rbind (bias_dims (l_loc l) (List.length (shape (q_fbw q)))) (fun dims =>
    rbind (broadcast_to (qz 0) (reduce_max_q dims (q_fbw q)) (shape bias)) (fun fbw =>
    rbind (act_bw l) (fun abw =>
    let mask := treduce Z.max 0 (axis_flags (List.length (shape abw)) dims) false abw in
    let biased := if (negb (Z.eqb (q_strategy q) 3) && can_bias_cover_rnd l)%bool
                  then bmap2 (qz 0) (qz 0) (fun f v => rn32 (pow2 (- qround_even f - 1) + v)%Qc) fbw bias
                  else Ok bias in
    rbind biased (fun bias =>
    bmap2 0 (qz 0) (fun m v => if Z.ltb 0 m then v else qz 0) mask bias))))).

  (** The keras layer of the proxy, convert.py:225-258, 69-80 *)
  Definition keras_op32 (l : hlayer) : result (list (list Qc) -> list Qc) :=
    match l_op l with
    | Fn g => Ok g
    | Linear ts kernel kq bias _ =>
        rbind (call32 kq kernel) (fun w =>
        match bias with
        | None => Ok (fun x => linop32 ts (data w) (hd [] x))
        | Some b => rbind (fused_qbias32 l b) (fun qb =>
            Ok (fun x => bias_add32 (l_loc l) (l_out l) (data qb) (linop32 ts (data w) (hd [] x))))
        end)
    end.

  (** The proxy, convert.py:299-331; only the weights are computed in float32. *)
  Definition to_proxy32 (l : hlayer) (S : string) : result player :=
    rbind (keras_op32 l) (fun g =>
    if l_relu l then
      rbind (first_quantizer l S) (fun q1 =>
      rbind (layer_quantizer l true S) (fun q2 => Ok (mkP g (Two q1 q2) (l_out l))))
    else rbind (layer_quantizer l false S) (fun q => Ok (mkP g (One q) (l_out l)))).
End Acc.

(** Calling the proxy on a batch. (convert.py:300-331) *)
Definition pcall32 (p : player) (xs : list (list (list Qc))) : result (list (list Qc)) :=
  let z := batch_tensor (p_out p) (map (p_op p) xs) in
  match p_chain p with
  | One q => rbind (fpq_call32 q z) (fun y => Ok (samples (p_out p) y))
  | Two q1 q2 =>
      rbind (fpq_call32 q1 z) (fun y1 =>
      rbind (fpq_call32 q2 (tmap relu y1)) (fun y => Ok (samples (p_out p) y)))
  end.
