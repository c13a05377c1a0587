(** Model of compute_exact_bops (src/HGQ/layers/base.py:242-246, dense.py:74-80,
    conv.py:129-135) and of the multiply-accumulate operators of dense and
    convolution layers (tf.matmul, tf.nn.convolution) as lists of taps.

    The sums are exact; in /repo numpy and TensorFlow add float32 numbers. *)
From Coq Require Import ZArith Qcanon List Bool.
From Verif Require Import Base.Num Base.Tensor Model.FixedPoint Model.Quantizer Model.Layers Model.Graph Model.Trace.
Import ListNotations.
Local Open Scope nat_scope.

(** tf.matmul of an input of shape (..., n) with a kernel of shape (n, u), dense.py:65 and 78;
    [rows] is the number of rows (product of the leading dimensions). *)
Definition matmul_taps (rows n u : nat) : taps :=
  flat_map (fun r => map (fun c => map (fun j => (r * n + j, j * u + c)) (seq 0 n)) (seq 0 u)) (seq 0 rows).

(** One spatial dimension of a convolution: input length, kernel length, stride, dilation,
    padding in front, output length. (conv.py:84-100) *)
Record sdim : Type := mkD { d_in : nat; d_k : nat; d_stride : nat; d_dil : nat; d_pad : nat; d_out : nat }.

(** tf.nn.convolution with padding VALID and SAME (conv.py:84-100): output length and padding
    as documented by TensorFlow. *)
Definition valid_dim (n k s dil : nat) : sdim := mkD n k s dil 0 ((n - (k - 1) * dil + s - 1) / s).
Definition same_dim (n k s dil : nat) : sdim :=
  let out := (n + s - 1) / s in mkD n k s dil (((out - 1) * s + (k - 1) * dil + 1 - n) / 2) out.

(** All multi-indices below [dims], in row-major order, and the flat position of one.
    (conv.py:92-100) *)
Fixpoint indices (dims : list nat) : list (list nat) :=
  match dims with
  | [] => [[]]
  | d :: ds => flat_map (fun i => map (cons i) (indices ds)) (seq 0 d)
  end.
Fixpoint flat (dims idx : list nat) : nat :=
  match dims, idx with
  | _ :: ds, i :: is => i * prodn ds + flat ds is
  | _, _ => 0
  end.

(** Input position read at output position [o] and kernel position [k]; None in the padding.
    (conv.py:92-100) *)
Fixpoint window (ds : list sdim) (o k : list nat) : option (list nat) :=
  match ds, o, k with
  | d :: ds', a :: o', b :: k' =>
      let p := a * d_stride d + b * d_dil d in
      if (Nat.leb (d_pad d) p && Nat.ltb (p - d_pad d) (d_in d))%bool
      then match window ds' o' k' with Some r => Some (p - d_pad d :: r) | None => None end
      else None
  | _, _, _ => Some []
  end.

(** Position of channel [c] at spatial position [i] of a sample with [n] channels, for
    data_format channels_first or channels_last (conv.py:97, 72). *)
Definition chan_pos (first : bool) (dims : list nat) (n : nat) (i : list nat) (c : nat) : nat :=
  if first then c * prodn dims + flat dims i else flat dims i * n + c.

(** Positions of the output in memory order: spatial index and channel. (conv.py:92-100) *)
Definition out_index (first : bool) (dims : list nat) (n : nat) : list (list nat * nat) :=
  if first then flat_map (fun c => map (fun o => (o, c)) (indices dims)) (seq 0 n)
  else flat_map (fun o => map (fun c => (o, c)) (seq 0 n)) (indices dims).

(** tf.nn.convolution; the kernel has shape (..., cin / groups, cout) in both data formats.
    (conv.py:92-100) *)
Definition conv_taps (first : bool) (ds : list sdim) (cin_g cout groups : nat) : taps :=
  map (fun oc => let '(o, c) := oc in
    flat_map (fun k =>
      match window ds o k with
      | None => []
      | Some i => map (fun ic =>
          (chan_pos first (map d_in ds) (cin_g * groups) i (c / (cout / groups) * cin_g + ic),
           (flat (map d_k ds) k * cin_g + ic) * cout + c)) (seq 0 cin_g)
      end) (indices (map d_k ds))) (out_index first (map d_out ds) cout).

Definition zsum (l : list Z) : Z := fold_right Z.add 0%Z l.

(** np.matmul / convolution_op applied to bitwidths, and np.sum / tf.reduce_sum.
    (dense.py:55, 78; conv.py:109, 133) *)
Definition mac_bits (ts : taps) (input_bw kernel_bw : list Z) : list Z :=
  map (fun ps => zsum (map (fun ab => (nth (fst ab) input_bw 0 * nth (snd ab) kernel_bw 0)%Z) ps)) ts.

(** HDense.compute_exact_bops, dense.py:74-80 *)
Definition dense_bops (rows n u : nat) (input_bw kernel_bw : list Z) : result Z :=
  if (Nat.eqb (List.length input_bw) (rows * n) && Nat.eqb (List.length kernel_bw) (n * u))%bool
  then Ok (zsum (mac_bits (matmul_taps rows n u) input_bw kernel_bw)) else Raise.

(** total_channels, conv.py:78-79; [output_shape] includes the batch axis. *)
Definition total_channels (output_shape : list nat) : nat := prodn (removelast (tl output_shape)).

(** HConv.compute_exact_bops, conv.py:129-135; [ts] are the taps of convolution_op. *)
Definition conv_bops (ts : taps) (parallel_factor : Z) (output_shape : list nat) (input_bw kernel_bw : list Z) : Qc :=
  (qz (zsum (mac_bits ts input_bw kernel_bw) * parallel_factor) / qz (Z.of_nat (total_channels output_shape)))%Qc.

(** Shape of the output of a convolution, batch axis included. (conv.py:78-79) *)
Definition conv_out_shape (first : bool) (ds : list sdim) (cout : nat) : list nat :=
  1 :: if first then cout :: map d_out ds else map d_out ds ++ [cout].

(** act_bw_exact, base.py:194-199 *)
Definition act_bw_exact (l : hlayer) : result (tensor Z) :=
  rbind (get_bits_exact (l_paq l) (l_relu l)) (fun bits =>
  broadcast_to 0%Z (mkT (shape (q_fbw (l_paq l))) (map (fun t => let '(k, i, f) := t in (i + f + k)%Z) bits)) (1 :: l_out l)).

Section B.
  Variable pw : Qc -> Qc.
  Variable ln2 : Qc.
  Variable fl : Qc -> Qc.

  (** kernel_bw_exact, base.py:177-181: the kernel is quantized by forward, not by the call
      that clips the bitwidths (quantizer.py:269). *)
  Definition layer_kernel_bw (kernel : tensor Qc) (kq : hgq) : result (list Z) :=
    rbind (forward pw ln2 kq kernel false false (fun _ => qz 0)) (fun r => Ok (kernel_bw_exact fl (data (fst r)))).

  (** Bit operations of a layer before the scaling of conv.py:133, [prev] the layer it reads. *)
  Definition layer_bops (prev l : hlayer) : result Z :=
    match l_op l with
    | Fn _ => Ok 0%Z
    | Linear ts kernel kq _ _ =>
        rbind (layer_kernel_bw kernel kq) (fun kb =>
        rbind (act_bw_exact prev) (fun ib => Ok (zsum (mac_bits ts (data ib) kb))))
    end.

  (** compute_exact_bops of object i.  [pred i] is the layer it reads (last_layer, base.py:20-24, here
      another quantized layer; the passive layers between them are in Model/Passive.v); [conv i] holds
      parallel_factor and the output shape of a convolution. *)
  Definition exact_bops (pred : nat -> option nat) (conv : nat -> option (Z * list nat)) (st : store) (i : nat) : result Qc :=
    rbind (get st i) (fun o =>
    match l_op (o_layer o) with
    | Fn _ => Ok (qz 0)
    | Linear _ _ _ _ _ =>
        match pred i with
        | None => Raise
        | Some p =>
            rbind (get st p) (fun o0 =>
            rbind (layer_bops (o_layer o0) (o_layer o)) (fun b =>
            match conv i with
            | None => Ok (qz b)
            | Some (parallel_factor, output_shape) =>
                Ok (qz (b * parallel_factor) / qz (Z.of_nat (total_channels output_shape)))%Qc
            end))
        end
    end).
End B.
