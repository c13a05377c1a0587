(** The training step on dual numbers: the forward pass of the HGQ layers (jit_forward, dense.py:60-72 and
    conv.py:115-127; misc.py:22-24, 53-55, 64-67) with training=True, and of models made of them, where every
    variable and input carries a tangent; also bn_train_jit_forward (dense.py:180-211, conv.py:362-393) and
    HBatchNormalization.forward (batchnorm_base.py:186-218, after the one-off adaptation and without the bops loss).  The tangent of an output is the directional derivative that
    tf.GradientTape yields for these directions. *)
From Coq Require Import ZArith Qcanon List Bool.
From Verif Require Import Base.Num Base.Tensor Model.Quantizer Model.Layers Model.BatchNorm Model.BopsGrad Model.Graph Model.Trace.
Import ListNotations.
Local Open Scope nat_scope.

Notation dsample := (list dual) (only parsing).

(** Batches of dual numbers, as batch_tensor, samples (Layers.v), zip_samples (Trace.v).
    (x of base.py:145) *)
Definition batch_tensor_d (out : list nat) (xs : list dsample) : tensor dual := mkT (length xs :: out) (concat xs).
Definition samples_d (out : list nat) (t : tensor dual) : list dsample :=
  map (fun j => firstn (prodn out) (skipn (j * prodn out) (data t))) (seq 0 (hd 0 (shape t))).
Definition zip_samples_d (ins : list (list dsample)) : result (list (list dsample)) :=
  match ins with
  | [] => Raise
  | b :: _ =>
      if forallb (fun b' => Nat.eqb (length b') (length b)) ins
      then Ok (map (fun j => map (fun b' => nth j b' []) ins) (seq 0 (length b)))
      else Raise
  end.

(** tf.matmul and tf.nn.convolution (dense.py:65, conv.py:92-100), tf.nn.bias_add (dense.py:68, conv.py:123) *)
Definition linop_d (ts : taps) (w : list dual) (x : dsample) : dsample :=
  map (fun ps => dsum (map (fun ab => d_mul (nth (fst ab) x (d_const (qz 0))) (nth (snd ab) w (d_const (qz 0)))) ps)) ts.
Definition bias_add_d (loc : Z) (out : list nat) (b : list dual) (z : dsample) : dsample :=
  map (fun ez => d_add (snd ez) (nth (chan loc out (fst ez)) b (d_const (qz 0)))) (combine (seq 0 (length z)) z).

(** keras.activations.relu: the gradient at 0 is 0. (dense.py:70, conv.py:125) *)
Definition act_relu_d (x : dual) : dual := if qltb (qz 0) (fst x) then x else d_const (qz 0).

(** tf.reduce_max of a variable; its gradient is shared equally among the elements that attain the maximum.
    (quantizer.py:191) *)
Definition reduce_max_d (dims : list Z) (f df : tensor Qc) : tensor dual :=
  let m := reduce_max_q dims f in
  let fl := axis_flags (length (shape f)) dims in
  mkT (shape m) (map (fun om =>
    let sel := filter (fun pv => (Nat.eqb (ridx fl (shape f) (fst pv)) (fst om) && qeqb (fst (snd pv)) (snd om))%bool)
                      (combine (seq 0 (length (data f))) (combine (data f) (data df))) in
    (snd om, qsum (map (fun pv => snd (snd pv)) sel) / qz (Z.of_nat (length sel)))%Qc)
    (combine (seq 0 (length (data m))) (data m))).

(** A function of the inputs of a layer whose derivative at x has, in the row of output position e, the coefficients
    [jac x e], given as (input, position, coefficient). (misc.py:54, 66) *)
Definition jacobian : Type := list (list Qc) -> nat -> list (nat * nat * Qc).
Definition fn_d (g : list (list Qc) -> list Qc) (jac : jacobian) (xs : list dsample) : dsample :=
  let x := map (map fst) xs in
  map (fun e => (nth e (g x) (qz 0),
                 qsum (map (fun c => (snd c * snd (nth (snd (fst c)) (nth (fst (fst c)) xs []) (qz 0, qz 0)))%Qc) (jac x e))))
      (seq 0 (length (g x))).

Section T.
  Variable pw : Qc -> Qc.
  Variable ln2 : Qc.

  (** quantizer.py:152-169 with training=True on tensors; the bitwidths [f] carry tangents. *)
  Definition quantize_d (q : hgq) (f x : tensor dual) (noise : nat -> Qc) : result (tensor dual) :=
    rbind (bmap2 (d_const (qz 0)) (d_const (qz 0)) (fun v g => (v, g)) x f) (fun vf =>
    rbind (rseq (map (fun pvf => forward_elem_d pw ln2 (q_strategy q) (q_exact q) true
                                   (noise (fst pvf)) (snd (snd pvf)) (fst (snd pvf)))
                     (combine (seq 0 (length (data vf))) (data vf)))) (fun ys =>
    Ok (mkT (shape vf) ys))).

  (** __call__, quantizer.py:137-143: the bitwidth variable is assigned its clipped value, which no gradient goes
      through, and is read afterwards. *)
  Definition call_d (q : hgq) (df : tensor Qc) (x : tensor dual) (noise : nat -> Qc) : result (tensor dual) :=
    quantize_d q (dual_tensor (q_fbw (clip_fbw q)) df) x noise.

  (** bias_forward, quantizer.py:181-209 *)
  Definition bias_forward_d (q : hgq) (df : tensor Qc) (x : tensor dual) (channel_loc : Z) (noise : nat -> Qc)
    : result (tensor dual) :=
    rbind (bias_dims channel_loc (length (shape (q_fbw q)))) (fun dims =>
    quantize_d q (reduce_max_d dims (q_fbw q) df) x noise).

  (** A layer in a training step: the layer, the shapes of its inputs without the batch axis, tangents of kernel,
      kernel bitwidths, bias and activation bitwidths, the derivative of the function of HQuantize, HActivation and
      HAdd (with respect to the inputs), and the random draws of the three quantizations.
    (dense.py:62-72, conv.py:117-127, misc.py:22-67) *)
  Record tlayer : Type := mkTL {
    t_layer : hlayer; t_ins : list (list nat); t_dk : tensor Qc; t_dfk : tensor Qc; t_db : tensor Qc; t_dfa : tensor Qc;
    t_jac : jacobian; t_nk : nat -> Qc; t_nb : nat -> Qc; t_na : nat -> Qc }.

  (** jit_forward, dense.py:60-72, conv.py:115-127; __forward, misc.py:22-24, 53-55, 64-67 *)
  Definition pre_activation_d (l : tlayer) (xs : list (list dsample)) : result (list dsample) :=
    match l_op (t_layer l) with
    | Fn g => Ok (map (fn_d g (t_jac l)) xs)
    | Linear ts kernel kq bias bias_loc =>
        rbind (call_d kq (t_dfk l) (dual_tensor kernel (t_dk l)) (t_nk l)) (fun wk =>
        let zs := map (fun x => linop_d ts (data wk) (hd [] x)) xs in
        match bias with
        | None => Ok zs
        | Some b =>
            rbind (bias_forward_d (l_paq (t_layer l)) (t_dfa l) (dual_tensor b (t_db l)) bias_loc (t_nb l)) (fun qb =>
            Ok (map (bias_add_d (l_loc (t_layer l)) (l_out (t_layer l)) (data qb)) zs))
        end)
    end.
  Definition hforward_d (l : tlayer) (xs : list (list dsample)) : result (list dsample) :=
    rbind (pre_activation_d l xs) (fun z =>
    rbind (call_d (l_paq (t_layer l)) (t_dfa l) (batch_tensor_d (l_out (t_layer l)) z) (t_na l)) (fun y =>
    let ys := samples_d (l_out (t_layer l)) y in
    Ok (if l_relu (t_layer l) then map (map act_relu_d) ys else ys))).

  (** ** Batch norm *)

  (** tf.math.reduce_mean, tf.math.reduce_variance (dense.py:190, 194; conv.py:372, 376), the product with the scale
      (dense.py:197) on dual numbers, as in BatchNorm.v *)
  Definition chan_vals_d (loc : Z) (out : list nat) (zs : list dsample) (c : nat) : list dual :=
    concat (map (fun z => map snd (filter (fun ez => Nat.eqb (chan loc out (fst ez)) c) (combine (seq 0 (length z)) z))) zs).
  Definition mean_list_d (l : list dual) : dual := d_div (dsum l) (d_const (qz (Z.of_nat (length l)))).
  Definition var_list_d (l : list dual) : dual :=
    mean_list_d (map (fun x => d_mul (d_sub x (mean_list_d l)) (d_sub x (mean_list_d l))) l).
  Definition scale_kernel_d (k : tensor dual) (s : nat -> dual) : tensor dual :=
    mkT (shape k) (map (fun jw => d_mul (snd jw) (s (Nat.modulo (fst jw) (last (shape k) 1))))
                       (combine (seq 0 (length (data k))) (data k))).

  Variable rsqrt : Qc -> Qc.
  (** tf.math.rsqrt: the derivative of y = rsqrt(x) is -1/2 y^3. (dense.py:196) *)
  Definition rsqrt_d (x : dual) : dual :=
    let y := rsqrt (fst x) in (y, - (qhalf * y * y * y) * snd x)%Qc.

  (** A batch-norm layer in a training step: tangents of kernel, kernel bitwidths, bias, gamma and activation
      bitwidths.  (bn_beta is not read.) (dense.py:180-211) *)
  Record tbn : Type := mkTB {
    tb_layer : bnlayer; tb_ins : list (list nat); tb_dk : tensor Qc; tb_dfk : tensor Qc; tb_db : tensor Qc; tb_dgamma : list Qc;
    tb_dfa : tensor Qc; tb_nk : nat -> Qc; tb_nb : nat -> Qc; tb_na : nat -> Qc }.

  (** bn_train_jit_forward, dense.py:180-211, conv.py:362-393 (the moving statistics are assigned, no gradient). *)
  Definition bn_train_d (b : tbn) (xs : list (list dsample)) : result (list dsample) :=
    let l := tb_layer b in
    let kernel := dual_tensor (b_kernel l) (tb_dk b) in
    let conv w := map (fun x => linop_d (b_ts l) (data w) (hd [] x)) xs in
    rbind (if b_scale l then Ok kernel else call_d (b_kq l) (tb_dfk b) kernel (tb_nk b)) (fun wk =>
    let z := conv wk in
    let bias c := match b_bias l with Some v => nth c (data (dual_tensor v (tb_db b))) (d_const (qz 0)) | None => d_const (qz 0) end in
    let mean c := d_add (mean_list_d (chan_vals_d (b_loc l) (b_out l) z c)) (bias c) in
    let var c := var_list_d (chan_vals_d (b_loc l) (b_out l) z c) in
    let scale c := if b_scale l
                   then d_mul (nth c (combine (b_gamma l) (tb_dgamma b)) (d_const (qz 0))) (rsqrt_d (d_add (var c) (d_const (b_eps l))))
                   else d_const (qz 1) in
    rbind (if b_scale l then call_d (b_kq l) (tb_dfk b) (scale_kernel_d kernel scale) (tb_nk b) else Ok wk) (fun wk' =>
    let z := conv wk' in
    rbind (if b_center l
           then rbind (bias_forward_d (b_paq l) (tb_dfa b)
                         (mkT [n_chan l] (map (fun c => d_sub (bias c) (d_mul (mean c) (scale c))) (chans l)))
                         (b_loc l) (tb_nb b)) (fun qb =>
                Ok (map (bias_add_d (b_loc l) (b_out l) (data qb)) z))
           else Ok z) (fun z =>
    rbind (call_d (b_paq l) (tb_dfa b) (batch_tensor_d (b_out l) z) (tb_na b)) (fun y =>
    let ys := samples_d (b_out l) y in
    Ok (if b_relu l then map (map act_relu_d) ys else ys))))).

  (** ** HBatchNormalization *)

  (** tf.math.reduce_mean and tf.math.reduce_variance with keepdims=True (batchnorm_base.py:190-191) on dual numbers,
      as tmean and tvar in BatchNorm.v *)
  Definition tmean_d (axes : list Z) (x : tensor dual) : tensor dual :=
    let fl := axis_flags (length (shape x)) axes in
    let s := treduce d_add (d_const (qz 0)) fl true x in
    let n := treduce Qcplus (qz 0) fl true (tmap (fun _ => qz 1) x) in
    mkT (shape s) (map (fun ab => d_div (fst ab) (d_const (snd ab))) (combine (data s) (data n))).
  Definition tvar_d (axes : list Z) (x : tensor dual) : result (tensor dual) :=
    rbind (bmap2 (d_const (qz 0)) (d_const (qz 0)) (fun a m => d_mul (d_sub a m) (d_sub a m)) x (tmean_d axes x)) (fun d => Ok (tmean_d axes d)).

  (** An HBatchNormalization in a training step: tangents of gamma, beta, kernel and activation bitwidths.
      (batchnorm_base.py:186-218) *)
  Record tnorm : Type := mkTN {
    tn_layer : bnorm; tn_in : list nat; tn_dgamma : tensor Qc; tn_dbeta : tensor Qc; tn_dfk : tensor Qc; tn_dfa : tensor Qc;
    tn_n1 : nat -> Qc; tn_n2 : nat -> Qc; tn_n3 : nat -> Qc }.

  (** forward with training=True, batchnorm_base.py:186-218.  A scale that is zero makes mean / ker infinite or not a number
      (batchnorm_base.py:200), which tensors of Qc do not have: Raise. *)
  Definition bnorm_train (l : bnorm) (x : tensor Qc) (n1 n2 n3 : nat -> Qc) : result (tensor Qc * bnorm) :=
    rbind (tvar (m_axes l) x) (fun var =>
    rbind (bmap2 (qz 0) (qz 0) (fun g v => (g * rsqrt (v + m_eps l))%Qc) (m_gamma l) var) (fun ker =>
    if existsb (qeqb (qz 0)) (data ker) then Raise else bnorm_forward rsqrt pw ln2 l x true true n1 n2 n3)).
  (** The same on dual numbers (the moving statistics are assigned, no gradient). (batchnorm_base.py:186-218) *)
  Definition bnorm_train_d (b : tnorm) (x : tensor dual) : result (tensor dual) :=
    let l := tn_layer b in
    let op f a b := bmap2 (d_const (qz 0)) (d_const (qz 0)) f a b in
    rbind (tvar_d (m_axes l) x) (fun var =>
    let mean := tmean_d (m_axes l) x in
    rbind (op (fun g v => d_mul g (rsqrt_d (d_add v (d_const (m_eps l))))) (dual_tensor (m_gamma l) (tn_dgamma b)) var) (fun ker =>
    rbind (op d_div mean ker) (fun mk =>
    rbind (op d_sub (dual_tensor (m_beta l) (tn_dbeta b)) mk) (fun bias =>
    rbind (call_d (m_kq l) (tn_dfk b) ker (tn_n1 b)) (fun qker =>
    rbind (call_d (m_paq l) (tn_dfa b) bias (tn_n2 b)) (fun qbias =>
    rbind (op d_mul qker x) (fun kx =>
    rbind (op d_add kx qbias) (fun z =>
    call_d (clip_fbw (m_paq l)) (tn_dfa b) z (tn_n3 b))))))))).

  (** A node of a model in a training step: an HGQ layer, a layer with fused batch norm, an HBatchNormalization, or a layer without variables that
      treats the samples of a batch separately (passive_layers.py, keras layers), with its derivative.
    (base.py:145-155) *)
  Inductive tnode : Type :=
  | TH (l : tlayer)
  | TB (b : tbn)
  | TN (b : tnorm)
  | TF (g : list (list Qc) -> list Qc) (jac : jacobian).

  (** HLayerBase.call, base.py:145-155, with training=True, on values: the ranges are recorded. *)
  Definition train_node (n : tnode) (ins : list batch) : result batch :=
    rbind (zip_samples ins) (fun xs =>
    match n with
    | TH l => if negb (sized_all (t_ins l) ins) then Raise else
        rbind (hforward pw ln2 (t_layer l) xs true true (t_nk l) (t_nb l) (t_na l)) (fun r => Ok (fst r))
    | TB b => if negb (sized_all (tb_ins b) ins) then Raise else
        rbind (bn_train rsqrt pw ln2 (tb_layer b) xs true (tb_nk b) (tb_nb b) (tb_na b)) (fun r => Ok (fst r))
    | TN b => if negb (sized_all [tn_in b] ins) then Raise else
        rbind (bnorm_train (tn_layer b) (batch_tensor (tn_in b) (map (hd []) xs)) (tn_n1 b) (tn_n2 b) (tn_n3 b)) (fun r =>
        Ok (samples (tn_in b) (fst r)))
    | TF g _ => Ok (map g xs)
    end).
  (** The same on dual numbers. (base.py:145-155) *)
  Definition train_node_d (n : tnode) (ins : list (list dsample)) : result (list dsample) :=
    rbind (zip_samples_d ins) (fun xs =>
    match n with
    | TH l => if negb (sized_all (t_ins l) (map (map (map fst)) ins)) then Raise else hforward_d l xs
    | TB b => if negb (sized_all (tb_ins b) (map (map (map fst)) ins)) then Raise else bn_train_d b xs
    | TN b => if negb (sized_all [tn_in b] (map (map (map fst)) ins)) then Raise else
        rbind (bnorm_train_d b (batch_tensor_d (tn_in b) (map (hd []) xs))) (fun y => Ok (samples_d (tn_in b) y))
    | TF g jac => Ok (map (fn_d g jac) xs)
    end).

  (** model(x, training=True): a layer object is used once, so its state after the call does not matter.
    (keras calls base.py:145-155 for every layer) *)
  Definition train_model (m : klayer tnode) (ins : list batch) : result (list batch) :=
    rbind (run (fun n bs u => rbind (train_node n bs) (fun b => Ok (b, u))) m ins tt) (fun r => Ok (fst r)).
  Definition train_model_d (m : klayer tnode) (ins : list (list dsample)) : result (list (list dsample)) :=
    rbind (run (fun n bs u => rbind (train_node_d n bs) (fun b => Ok (b, u))) m ins tt) (fun r => Ok (fst r)).
End T.
