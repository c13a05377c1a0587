(** Model of the inference path of the HGQ layers (src/HGQ/layers/{base,dense,conv,misc}.py)
    and of their proxies (src/HGQ/proxy/convert.py: to_keras_layer, copy_fused_weights,
    ProxyLayerXFormer).

    A sample is the row-major list of the values of one element of the batch. *)
From Coq Require Import ZArith Qcanon List Bool String.
From Verif Require Import Base.Num Base.Tensor Model.FixedPoint Model.Quantizer.
Import ListNotations.
Local Open Scope Z_scope.

Notation sample := (list Qc) (only parsing).

(** A batch of samples of shape [out] as a tensor, and back (the leading axis of keras tensors).
    (x of base.py:145) *)
Definition batch_tensor (out : list nat) (xs : list sample) : tensor Qc :=
  mkT (List.length xs :: out) (concat xs).
Definition samples (out : list nat) (t : tensor Qc) : list sample :=
  map (fun j => firstn (prodn out) (skipn (j * prodn out) (data t))) (seq 0 (hd 0%nat (shape t))).

(** A multiply-accumulate operator: one list of (input position, kernel
    position) pairs per output position.  tf.matmul (dense.py:65) and
    tf.nn.convolution (conv.py:92-100, any stride, padding, dilation, groups)
    are of this form. *)
Definition taps : Type := list (list (nat * nat)).
Definition linop (ts : taps) (w : list Qc) (x : sample) : sample :=
  map (fun ps => qsum (map (fun ab => nth (fst ab) x (qz 0) * nth (snd ab) w (qz 0))%Qc ps)) ts.

(** Channel of flat position e of a sample of shape [out] for channel_loc -1 / 1.
    (base.py:222-225, tf.nn.bias_add at dense.py:68, conv.py:123) *)
Definition chan (loc : Z) (out : list nat) (e : nat) : nat :=
  if Z.eqb loc 1 then Nat.modulo (Nat.div e (prodn (tl out))) (hd 1%nat out)
  else Nat.modulo e (last out 1%nat).

(** tf.nn.bias_add, dense.py:68, conv.py:123 *)
Definition bias_add (loc : Z) (out : list nat) (b : list Qc) (z : sample) : sample :=
  map (fun ez => (snd ez + nth (chan loc out (fst ez)) b (qz 0))%Qc) (combine (seq 0 (List.length z)) z).

(** What happens before the pre-activation quantizer.
    [Linear]: kernel is fused_kernel, bias is fused_bias (base.py:201-207),
    [bias_loc] the channel location passed to bias_forward in jit_forward
    (channel_loc in dense.py:67; always -1 in conv.py:122).
    [Fn]: HQuantize (misc.py:24), HActivation (misc.py:54), HAdd (misc.py:66): any function of the input samples. *)
Inductive lop : Type :=
| Linear (ts : taps) (kernel : tensor Qc) (kq : hgq) (bias : option (tensor Qc)) (bias_loc : Z)
| Fn (g : list sample -> sample).

(** A layer: [l_relu] is _relu_act of a non-Activation layer (base.py:89-91),
    [l_loc] is channel_loc, [l_out] output_shape[1:]. *)
Record hlayer : Type := mkL {
  l_op : lop; l_paq : hgq; l_relu : bool; l_loc : Z; l_out : list nat }.

Definition relu (x : Qc) : Qc := qmax x (qz 0).

Section Fwd.
  Variable pw : Qc -> Qc.
  Variable ln2 : Qc.

  (** jit_forward, dense.py:61-72, conv.py:116-127; __forward, misc.py:22-24, 53-55, 64-67.
      [xs]: one entry per sample of the batch, the list of the layer's inputs.
      [nk], [nb], [na]: random draws of the three quantizations. *)
  Definition pre_activation (l : hlayer) (xs : list (list sample)) (training : bool) (nk nb : nat -> Qc)
    : result (list sample * lop) :=
    match l_op l with
    | Fn g => Ok (map g xs, l_op l)
    | Linear ts kernel kq bias bias_loc =>
        rbind (call pw ln2 kq kernel training false nk) (fun wk =>
        let zs := map (fun x => linop ts (data (fst wk)) (hd [] x)) xs in
        let op' := Linear ts kernel (snd wk) bias bias_loc in
        match bias with
        | None => Ok (zs, op')
        | Some b =>
            rbind (bias_forward pw ln2 (l_paq l) b training bias_loc nb) (fun qb =>
            Ok (map (bias_add (l_loc l) (l_out l) (data qb)) zs, op'))
        end)
    end.
  Definition hforward (l : hlayer) (xs : list (list sample)) (training record : bool) (nk nb na : nat -> Qc)
    : result (list sample * hlayer) :=
    rbind (pre_activation l xs training nk nb) (fun zo =>
    rbind (call pw ln2 (l_paq l) (batch_tensor (l_out l) (fst zo)) training record na) (fun yq =>
    let ys := samples (l_out l) (fst yq) in
    Ok (if l_relu l then map (map relu) ys else ys,
        mkL (snd zo) (snd yq) (l_relu l) (l_loc l) (l_out l)))).

  (** can_bias_cover_rnd, base.py:72-87 *)
  Definition can_bias_cover_rnd (l : hlayer) : bool :=
    match l_op l with
    | Linear _ _ _ (Some b) _ =>
        let qs := shape (q_fbw (l_paq l)) in
        let bs := shape b in
        if negb (Nat.eqb (List.length bs) 1) then false
        else if Nat.eqb (prodn qs) 1 then true
        else if Z.eqb (l_loc l) (-1)
             then (Nat.eqb (prodn (removelast qs)) 1 && if list_eq_dec Nat.eq_dec bs (skipn (List.length qs - 1) qs) then true else false)%bool
        else if Z.eqb (l_loc l) 1
             then (Nat.eqb (prodn (tl qs)) 1 && if list_eq_dec Nat.eq_dec bs (firstn 1 qs) then true else false)%bool
        else false
    | _ => false
    end.

  (** fused_qkernel, base.py:209-213 *)
  Definition fused_qkernel (kernel : tensor Qc) (kq : hgq) : result (tensor Qc) :=
    rbind (call pw ln2 kq kernel false false (fun _ => qz 0)) (fun r => Ok (fst r)).

  (** tf.broadcast_to (base.py:167, 192, 230) *)
  Definition broadcast_to {A} (d : A) (t : tensor A) (s : list nat) : result (tensor A) :=
    match broadcast_shape s (shape t) with
    | Some s' => if list_eq_dec Nat.eq_dec s s'
                 then Ok (mkT s (map (fun p => nth (bidx (pad_to (List.length s) (shape t)) s p) (data t) d) (seq 0 (prodn s))))
                 else Raise
    | None => Raise
    end.

  (** act_bw, base.py:183-192 (finite registers) *)
  Definition act_bw (l : hlayer) : result (tensor Z) :=
    let q := l_paq l in
    broadcast_to 0 (mkT (shape (q_fbw q))
      (map (fun mf => act_bw_elem (l_relu l) (fin (qz 0) (fst (fst mf))) (fin (qz 0) (snd (fst mf))) (snd mf))
           (combine (combine (data (q_min q)) (data (q_max q))) (data (q_fbw q))))) (1%nat :: l_out l).

  (** fused_qbias, base.py:215-236 *)
  Definition fused_qbias (l : hlayer) (b : tensor Qc) : result (tensor Qc) :=
    let q := l_paq l in
    rbind (bias_forward pw ln2 q b false (l_loc l) (fun _ => qz 0)) (fun bias =>
    rbind (bias_dims (l_loc l) (List.length (shape (q_fbw q)))) (fun dims =>
    rbind (broadcast_to (qz 0) (reduce_max_q dims (q_fbw q)) (shape bias)) (fun fbw =>
    rbind (act_bw l) (fun abw =>
    let mask := treduce Z.max 0 (axis_flags (List.length (shape abw)) dims) false abw in
    let biased := if (negb (Z.eqb (q_strategy q) 3) && can_bias_cover_rnd l)%bool
                  then bmap2 (qz 0) (qz 0) (fun f v => (pow2 (- qround_even f - 1) + v)%Qc) fbw bias
                  else Ok bias in
    rbind biased (fun bias =>
    bmap2 0 (qz 0) (fun m v => if Z.ltb 0 m then v else qz 0) mask bias))))).

  (** get_kbiRS, convert.py:267-276 (int8 arithmetic on line 271), and the
      constructor of FixedPointQuantizer. *)
  Definition kbi (t : Z * Z * Z) : qcfg :=
    let '(k, i, f) := t in mkCfg k (i8 (i8 (k + i) + f)) (i8 (k + i)).
  Definition rnd_mode (l : hlayer) : string :=
    if (negb (Z.eqb (q_strategy (l_paq l)) 3) && negb (can_bias_cover_rnd l))%bool then "RND"%string else "TRN"%string.
  Definition layer_quantizer (l : hlayer) (pos_only : bool) (S : string) : result (fpq unit) :=
    rbind (get_bits_exact (l_paq l) pos_only) (fun bits =>
    Ok (fpq_init (mkT (shape (q_fbw (l_paq l))) (map kbi bits)) (rnd_mode l) S tt)).

  (** The proxy of a layer, convert.py:299-331: the keras operation and the
      quantizer(s) behind it. *)
  Inductive pchain : Type :=
  | One (q : fpq unit)                 (* convert.py:329-331 *)
  | Two (q1 q2 : fpq unit).            (* convert.py:318-327 *)
  Record player : Type := mkP { p_op : list sample -> sample; p_chain : pchain; p_out : list nat }.

  (** to_keras_layer + copy_fused_weights, convert.py:225-258, 69-80, for the
      operations above (HQuantize has no keras layer, convert.py:290-293). *)
  Definition keras_op (l : hlayer) : result (list sample -> sample) :=
    match l_op l with
    | Fn g => Ok g
    | Linear ts kernel kq bias _ =>
        rbind (fused_qkernel kernel kq) (fun w =>
        match bias with
        | None => Ok (fun x => linop ts (data w) (hd [] x))
        | Some b => rbind (fused_qbias l b) (fun qb =>
            Ok (fun x => bias_add (l_loc l) (l_out l) (data qb) (linop ts (data w) (hd [] x))))
        end)
    end.

  (** Homogeneous first quantizer of the ReLU chain, convert.py:319-325. *)
  Definition first_quantizer (l : hlayer) (S : string) : result (fpq unit) :=
    rbind (get_bits_exact (l_paq l) false) (fun bits =>
    let k := zmax_list (map (fun t => fst (fst t)) bits) in
    let i := zmax_list (map (fun t => snd (fst t)) bits) in
    let f := zmax_list (map snd bits) in
    let b := i8 (i8 (k + i) + f) in
    let f_add_bits := if String.eqb (rnd_mode l) "TRN" then 0 else if String.eqb (rnd_mode l) "RND" then 1 else 2 in
    Ok (fpq_init (mkT [] [mkCfg k (i8 (b + f_add_bits)) (i8 (k + i))]) "TRN" S tt)).

  Definition to_proxy (l : hlayer) (S : string) : result player :=
    rbind (keras_op l) (fun g =>
    if l_relu l then
      rbind (first_quantizer l S) (fun q1 =>
      rbind (layer_quantizer l true S) (fun q2 => Ok (mkP g (Two q1 q2) (l_out l))))
    else rbind (layer_quantizer l false S) (fun q => Ok (mkP g (One q) (l_out l)))).

  (** Calling the proxy of a layer on a batch. (convert.py:300-331) *)
  Definition pcall (p : player) (xs : list (list sample)) : result (list sample) :=
    let z := batch_tensor (p_out p) (map (p_op p) xs) in
    match p_chain p with
    | One q => rbind (fpq_call q false z) (fun y => Ok (samples (p_out p) y))
    | Two q1 q2 =>
        rbind (fpq_call q1 false z) (fun y1 =>
        rbind (fpq_call q2 false (tmap relu y1)) (fun y => Ok (samples (p_out p) y)))
    end.
End Fwd.
