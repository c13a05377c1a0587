(** The gradient of the bit operations a layer adds to its loss: kernel and activation bitwidths on dual numbers
    (HGQ.get_bits, HLayerBase._kernel_bw and act_bw, HDense.forward, HConv.forward).

    A bitwidth variable is its value and a tangent of the same shape.  floor and round have zero gradient, so the
    integer bits are constants; relu has gradient 0 at 0 and at -inf. *)
From Coq Require Import ZArith Qcanon List Bool.
From Verif Require Import Base.Num Base.Tensor Model.Quantizer Model.Layers Model.Bops Model.TrainBops.
Import ListNotations.

(** A variable with its tangent.
    (base.py:170-192, differentiated by the optimizer through add_loss, dense.py:58) *)
Definition dual_tensor (t dt : tensor Qc) : tensor dual := mkT (shape t) (combine (data t) (data dt)).

(** fp_bits = fbw + stop_gradient(round(fbw) - fbw), quantizer.py:217-218 *)
Definition fp_bits_d (f : dual) : dual := d_add f (stop_gradient (d_sub (d_const (qz (qround_even (fst f)))) f)).

(** int_bits + fp_bits (+ kn), None for -inf: base.py:173, 187-189 *)
Definition add_bits_d (i : zext) (f : dual) : option dual :=
  match i with ZNegInf => None | ZFin a => Some (d_add (d_const (qz a)) f) end.

(** tf.nn.relu, base.py:173, 190 *)
Definition relu_d (x : option dual) : dual :=
  match x with Some d => if qltb (qz 0) (fst d) then d else d_const (qz 0) | None => d_const (qz 0) end.

(** _kernel_bw, base.py:169-175; [s] is tf.sqrt(1. / degeneracy).  [qk] is the quantized kernel with its tangent. *)
Definition trained_kernel_bw_d (kq : hgq) (dk : tensor Qc) (qk : tensor dual) (s : Qc) : result (tensor dual) :=
  rbind (bmap2 ZNegInf (d_const (qz 0)) (fun i f => scale_grad (relu_d (add_bits_d i (fp_bits_d f))) (d_const s))
           (ref_int_bits (q_skip kq) (tmap fst qk)) (dual_tensor (q_fbw kq) dk))
    (fun b => broadcast_to (d_const (qz 0)) b (shape qk)).

(** get_bits from the registers and act_bw of one element, quantizer.py:217-241 and base.py:184-191 *)
Definition act_bw_elem_d (relu_act : bool) (mn mx : Qc) (f : dual) (s : Qc) : dual :=
  let '(ib, _, kn) := bits_approx_elem relu_act mn mx (fst f) in
  let bw := add_bits_d ib (fp_bits_d f) in
  let bw := if relu_act then bw else option_map (fun b => d_add b (d_const (qz kn))) bw in
  scale_grad (relu_d bw) (d_const s).

(** act_bw, base.py:183-192 *)
Definition act_bw_d (l : hlayer) (da : tensor Qc) (s : Qc) : result (tensor dual) :=
  let q := l_paq l in
  broadcast_to (d_const (qz 0)) (mkT (shape (q_fbw q))
    (map (fun mf => act_bw_elem_d (l_relu l) (fin (qz 0) (fst (fst mf))) (fin (qz 0) (snd (fst mf))) (snd mf) s)
         (combine (combine (data (q_min q)) (data (q_max q))) (data (dual_tensor (q_fbw q) da))))) (1%nat :: l_out l).

Definition dsum (l : list dual) : dual := fold_right d_add (d_const (qz 0)) l.

(** tf.reduce_sum(tf.matmul(input_bw, kernel_bw)) and the sum over convolution_op, dense.py:55, conv.py:109 *)
Definition mac_bits_d (ts : taps) (input_bw kernel_bw : list dual) : dual :=
  dsum (map (fun ps => dsum (map (fun ab => d_mul (nth (fst ab) input_bw (d_const (qz 0))) (nth (snd ab) kernel_bw (d_const (qz 0)))) ps)) ts).

(** The term added to the loss, dense.py:52-58 and conv.py:106-113: [factor] is 1 for HDense and
    parallel_factor / total_channels for HConv, [beta] the layer's BOPs regularisation strength. *)
Definition bops_loss_d (ts : taps) (prev : hlayer) (da : tensor Qc) (sa : Qc) (kq : hgq) (dk : tensor Qc) (qk : tensor dual) (sk factor beta : Qc)
  : result dual :=
  rbind (act_bw_d prev da sa) (fun ib =>
  rbind (trained_kernel_bw_d kq dk qk sk) (fun kb =>
  Ok (d_mul (d_mul (mac_bits_d ts (data ib) (data kb)) (d_const factor)) (d_const beta)))).
