(** Model of the batch-norm layers: HBatchNormBase and HBatchNormalization
    (src/HGQ/layers/batchnorm_base.py), HDenseBatchNorm (dense.py:96-211) and
    HConvBatchNorm (conv.py:259-393).

    Arithmetic is exact.  The reciprocal square root is an arbitrary function
    [rsqrt] (tf.math.rsqrt); nothing about it is assumed. *)
From Coq Require Import ZArith Qcanon List Bool.
From Verif Require Import Base.Num Base.Tensor Model.Quantizer Model.Layers.
Import ListNotations.
Local Open Scope Z_scope.

(** ** Fused layers *)

(** A fused batch-norm layer: [b_ts], [b_kernel], [b_kq], [b_bias] (None when
    use_bias is off), [b_paq], [b_relu], [b_loc], [b_out] as in [hlayer];
    [b_bias_loc] is the channel location jit_forward passes to bias_forward
    (channel_loc in dense.py:67, -1 in conv.py:122); the four vectors have one
    entry per channel (batchnorm_base.py:63-92). *)
Record bnlayer : Type := mkB {
  b_ts : taps; b_kernel : tensor Qc; b_kq : hgq; b_bias : option (tensor Qc); b_bias_loc : Z;
  b_center : bool; b_scale : bool;
  b_gamma : list Qc; b_beta : list Qc; b_mean : list Qc; b_var : list Qc;
  b_eps : Qc; b_momentum : Qc;
  b_paq : hgq; b_relu : bool; b_loc : Z; b_out : list nat }.

(** Number of channels: the last axis of the kernel.
    (batchnorm_base.py:57, 101-102; dense.py:190-197) *)
Definition n_chan (l : bnlayer) : nat := last (shape (b_kernel l)) 1%nat.
Definition chans (l : bnlayer) : list nat := seq 0 (n_chan l).

(** bn_gamma, bn_beta, moving_mean, moving_variance of channel c: the weights, or the
    constant variables of batchnorm_base.py:78 and 94. *)
Definition gamma_of (l : bnlayer) (c : nat) : Qc := if b_scale l then nth c (b_gamma l) (qz 0) else qz 1.
Definition beta_of (l : bnlayer) (c : nat) : Qc := if b_center l then nth c (b_beta l) (qz 0) else qz 0.
Definition mean_of (l : bnlayer) (c : nat) : Qc := if b_center l then nth c (b_mean l) (qz 0) else qz 0.
Definition var_of (l : bnlayer) (c : nat) : Qc := if b_scale l then nth c (b_var l) (qz 0) else qz 1.

(** kernel * scale: broadcast over the last axis (batchnorm_base.py:102, dense.py:197). *)
Definition scale_kernel (k : tensor Qc) (s : nat -> Qc) : tensor Qc :=
  mkT (shape k) (map (fun jw => (snd jw * s (Nat.modulo (fst jw) (last (shape k) 1%nat)))%Qc)
                     (combine (seq 0 (List.length (data k))) (data k))).

Section Bn.
  Variable rsqrt : Qc -> Qc.

  (** The scale of batchnorm_base.py:101 and 109. *)
  Definition bn_scale (l : bnlayer) (c : nat) : Qc := (gamma_of l c * rsqrt (var_of l c + b_eps l))%Qc.

  (** fused_kernel, batchnorm_base.py:96-102 *)
  Definition bn_fused_kernel (l : bnlayer) : tensor Qc :=
    if b_scale l then scale_kernel (b_kernel l) (bn_scale l) else b_kernel l.

  (** fused_bias, batchnorm_base.py:104-110 (self.bias of shape [n_chan]) *)
  Definition bn_fused_bias (l : bnlayer) (b : tensor Qc) : tensor Qc :=
    if b_center l
    then mkT [n_chan l] (map (fun c => (nth c (data b) (qz 0) - mean_of l c * bn_scale l c + beta_of l c)%Qc) (chans l))
    else b.

  (** jit_forward of the batch-norm layers is the one of HDense and HConv
      (dense.py:60-72, conv.py:115-127) with these two properties, and so are the
      proxy layers (convert.py:69-80): the fused layer as a plain one. *)
  Definition bn_hlayer (l : bnlayer) : hlayer :=
    mkL (Linear (b_ts l) (bn_fused_kernel l) (b_kq l) (option_map (bn_fused_bias l) (b_bias l)) (b_bias_loc l))
        (b_paq l) (b_relu l) (b_loc l) (b_out l).

  (** tf.math.reduce_mean / reduce_variance over every axis but the channel's
      (dense.py:190, 194; conv.py:372, 376). *)
  Definition chan_vals (loc : Z) (out : list nat) (zs : list sample) (c : nat) : list Qc :=
    concat (map (fun z => map snd (filter (fun ez => Nat.eqb (chan loc out (fst ez)) c)
                                          (combine (seq 0 (List.length z)) z))) zs).
  Definition mean_list (l : list Qc) : Qc := (qsum l / qz (Z.of_nat (List.length l)))%Qc.
  Definition var_list (l : list Qc) : Qc :=
    mean_list (map (fun x => ((x - mean_list l) * (x - mean_list l))%Qc) l).

  Section Fwd.
    Variable pw : Qc -> Qc.
    Variable ln2 : Qc.

    (** moving statistics update, dense.py:191, 195; conv.py:373, 377 *)
    Definition moving (mom old new : Qc) : Qc := (mom * old + (qz 1 - mom) * new)%Qc.

    (** bn_train_jit_forward, dense.py:180-211, conv.py:362-393: outputs and the layer
        afterwards.  (When scale is off the kernel quantizer is only called once.) *)
    Definition bn_train (l : bnlayer) (xs : list (list sample)) (record : bool) (nk nb na : nat -> Qc)
      : result (list sample * bnlayer) :=
      let training := true in
      let conv w := map (fun x => linop (b_ts l) (data w) (hd [] x)) xs in
      rbind (if b_scale l then Ok (b_kernel l, b_kq l) else call pw ln2 (b_kq l) (b_kernel l) training false nk) (fun wk =>
      let z := conv (fst wk) in
      let bias c := match b_bias l with Some b => nth c (data b) (qz 0) | None => qz 0 end in
      let mean c := (mean_list (chan_vals (b_loc l) (b_out l) z c) + bias c)%Qc in
      let moving_mean := if b_center l then map (fun c => moving (b_momentum l) (nth c (b_mean l) (qz 0)) (mean c)) (chans l)
                         else b_mean l in
      let var c := var_list (chan_vals (b_loc l) (b_out l) z c) in
      let moving_var := if b_scale l then map (fun c => moving (b_momentum l) (nth c (b_var l) (qz 0)) (var c)) (chans l)
                        else b_var l in
      let scale c := if b_scale l then (nth c (b_gamma l) (qz 0) * rsqrt (var c + b_eps l))%Qc else qz 1 in
      rbind (if b_scale l then call pw ln2 (b_kq l) (scale_kernel (b_kernel l) scale) training false nk else Ok wk) (fun wk' =>
      let z := conv (fst wk') in
      rbind (if b_center l
             then rbind (bias_forward pw ln2 (b_paq l)
                           (mkT [n_chan l] (map (fun c => (bias c - mean c * scale c)%Qc) (chans l)))
                           training (b_loc l) nb) (fun qb =>
                  Ok (map (bias_add (b_loc l) (b_out l) (data qb)) z))
             else Ok z) (fun z =>
      rbind (call pw ln2 (b_paq l) (batch_tensor (b_out l) z) training record na) (fun yq =>
      let ys := samples (b_out l) (fst yq) in
      Ok (if b_relu l then map (map relu) ys else ys,
          mkB (b_ts l) (b_kernel l) (snd wk') (b_bias l) (b_bias_loc l) (b_center l) (b_scale l)
              (b_gamma l) (b_beta l) moving_mean moving_var (b_eps l) (b_momentum l)
              (snd yq) (b_relu l) (b_loc l) (b_out l)))))).
  End Fwd.

  (** ** Standalone layer *)

  (** HBatchNormalization: the four parameters have the shape [1; ..; C; ..; 1] of
      batchnorm_base.py:177-179 and [m_axes] lists the reduced axes. *)
  Record bnorm : Type := mkN {
    m_gamma : tensor Qc; m_beta : tensor Qc; m_mean : tensor Qc; m_var : tensor Qc;
    m_eps : Qc; m_momentum : Qc; m_axes : list Z; m_kq : hgq; m_paq : hgq }.

  (** batchnorm_base.py:199-208 with the quantizers [qk] and [qb] *)
  Definition bnorm_z (l : bnorm) (qk qb : tensor Qc -> result (tensor Qc)) (mean var x : tensor Qc) : result (tensor Qc) :=
    rbind (bmap2 (qz 0) (qz 0) (fun g v => (g * rsqrt (v + m_eps l))%Qc) (m_gamma l) var) (fun ker =>
    rbind (bmap2 (qz 0) (qz 0) Qcdiv mean ker) (fun mk =>
    rbind (bmap2 (qz 0) (qz 0) Qcminus (m_beta l) mk) (fun bias =>
    rbind (qk ker) (fun qker =>
    rbind (qb bias) (fun qbias =>
    rbind (bmap2 (qz 0) (qz 0) Qcmult qker x) (fun kx =>
    bmap2 (qz 0) (qz 0) Qcplus kx qbias)))))).

  Definition tmean (axes : list Z) (x : tensor Qc) : tensor Qc :=
    let fl := axis_flags (List.length (shape x)) axes in
    let s := treduce Qcplus (qz 0) fl true x in
    let n := treduce Qcplus (qz 0) fl true (tmap (fun _ => qz 1) x) in
    mkT (shape s) (map (fun ab => (fst ab / snd ab)%Qc) (combine (data s) (data n))).
  Definition tvar (axes : list Z) (x : tensor Qc) : result (tensor Qc) :=
    rbind (bmap2 (qz 0) (qz 0) (fun a m => ((a - m) * (a - m))%Qc) x (tmean axes x)) (fun d => Ok (tmean axes d)).

  (** forward, batchnorm_base.py:186-218 (without the one-off adaptation of lines
      202-204 and the bops loss); [n1] to [n3] are the random draws of the three
      quantizer calls. *)
  Definition bnorm_forward (pw : Qc -> Qc) (ln2 : Qc) (l : bnorm) (x : tensor Qc) (training record : bool)
      (n1 n2 n3 : nat -> Qc) : result (tensor Qc * bnorm) :=
    rbind (if training
           then rbind (tvar (m_axes l) x) (fun var =>
                let mean := tmean (m_axes l) x in
                let upd old new := bmap2 (qz 0) (qz 0) (fun a b => (a - (a - b) * (qz 1 - m_momentum l))%Qc) old new in
                rbind (upd (m_mean l) mean) (fun mm => rbind (upd (m_var l) var) (fun mv => Ok (mean, var, mm, mv))))
           else Ok (m_mean l, m_var l, m_mean l, m_var l)) (fun st =>
    let '(mean, var, mm, mv) := st in
    let q quant n t := rbind (call pw ln2 quant t training false n) (fun r => Ok (fst r)) in
    rbind (bnorm_z l (q (m_kq l) n1) (q (m_paq l) n2) mean var x) (fun z =>
    rbind (call pw ln2 (clip_fbw (m_paq l)) z training record n3) (fun yq =>
    Ok (fst yq, mkN (m_gamma l) (m_beta l) mm mv (m_eps l) (m_momentum l) (m_axes l) (clip_fbw (m_kq l)) (snd yq))))).
End Bn.
