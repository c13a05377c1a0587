(** Model of the life of an HBatchNormalization layer (src/HGQ/layers/batchnorm_base.py:134-234) around
    the computation of Model/BatchNorm.v: building, the one-off adaptation of the bitwidths, the reported and
    exact bit operations, graphs, conversion to a keras layer, and saving.

    The initializers are the default ones.  Inputs have the batch axis first. *)
From Coq Require Import ZArith Qcanon List Bool String.
From Verif Require Import Base.Num Base.Tensor Model.Quantizer Model.Layers Model.Bops Model.TrainBops Model.BatchNorm Model.Serial Model.Weights.
Import ListNotations.
Local Open Scope nat_scope.

(** ** Building *)

(** Arguments of the constructor (batchnorm_base.py:136-152); [ba_adapt] is do_adapt_kernel_bits, base.py:54. *)
Record bnargs : Type := mkBA {
  ba_axis : list Z; ba_momentum : Qc; ba_eps : Qc; ba_center : bool; ba_scale : bool; ba_adapt : bool }.

(** keras validate_axis, called at batchnorm_base.py:51 and 175: negative axes count from the end; axes out of range and
    repeated axes are refused. *)
Fixpoint nodupb (l : list Z) : bool :=
  match l with [] => true | a :: l' => (negb (existsb (Z.eqb a) l') && nodupb l')%bool end.
Definition validate_axis (axis : list Z) (rank : nat) : result (list Z) :=
  let ax := map (fun a => if (a <? 0)%Z then (Z.of_nat rank + a)%Z else a) axis in
  if (negb (Nat.eqb rank 0) && forallb (fun a => (0 <=? a)%Z && (a <? Z.of_nat rank)%Z)%bool ax && nodupb ax)%bool then Ok ax else Raise.

(** reduction_axis, batchnorm_base.py:176 *)
Definition reduction_axis (axis : list Z) (rank : nat) : list Z :=
  filter (fun i => negb (existsb (Z.eqb i) axis)) (map Z.of_nat (seq 0 rank)).
(** ker_shape, batchnorm_base.py:177; [dims] is the input shape behind the batch axis. *)
Definition ker_shape (axis : list Z) (dims : list nat) : list nat :=
  map (fun id => if existsb (Z.eqb (Z.of_nat (fst id))) axis then snd id else 1) (combine (seq 0 (S (List.length dims))) (1 :: dims)).

(** post_build, batchnorm_base.py:172-184 and 49-94: the parameters; those switched off are scalars that do not train.
    An axis list with the batch axis is refused (add_weight cannot make a weight of unknown size).  [kq] and [paq] are the
    quantizers of base.py:117-143. *)
Definition bn_build (a : bnargs) (dims : list nat) (kq paq : hgq) : result bnorm :=
  rbind (validate_axis (ba_axis a) (S (List.length dims))) (fun axis =>
  if existsb (Z.eqb 0) axis then Raise else
  let s := ker_shape axis dims in
  let full v := mkT s (repeat v (prodn s)) in
  let scalar v := mkT [] [v] in
  Ok (mkN (if ba_scale a then full (qz 1) else scalar (qz 1)) (if ba_center a then full (qz 0) else scalar (qz 0))
          (if ba_center a then full (qz 0) else scalar (qz 0)) (if ba_scale a then full (qz 1) else scalar (qz 1))
          (ba_eps a) (ba_momentum a) (reduction_axis axis (S (List.length dims))) kq paq)).

(** ** Calls *)

Section L.
  Variable rsqrt pw : Qc -> Qc.
  Variable ln2 : Qc.
  Variable lg : Qc -> Qc.
  Variable fl : Qc -> Qc.

  (** The variance used, batchnorm_base.py:190 and 197, and ker of line 199. *)
  Definition bn_var (l : bnorm) (x : tensor Qc) (training : bool) : result (tensor Qc) :=
    if training then tvar (m_axes l) x else Ok (m_var l).
  Definition bn_ker (l : bnorm) (var : tensor Qc) : result (tensor Qc) :=
    bmap2 (qz 0) (qz 0) (fun g v => (g * rsqrt (v + m_eps l))%Qc) (m_gamma l) var.

  (** assign_sub of lines 192 and 193 needs an update of the shape of the variable. *)
  Definition can_update (l : bnorm) (x : tensor Qc) : bool :=
    let s := kept1 (axis_flags (List.length (shape x)) (m_axes l)) (shape x) in
    ((if list_eq_dec Nat.eq_dec (shape (m_mean l)) s then true else false) &&
     (if list_eq_dec Nat.eq_dec (shape (m_var l)) s then true else false))%bool.

  Definition with_kq (l : bnorm) (kq : hgq) : bnorm :=
    mkN (m_gamma l) (m_beta l) (m_mean l) (m_var l) (m_eps l) (m_momentum l) (m_axes l) kq (m_paq l).
  (** self.kq.adapt_bw_bits(ker), batchnorm_base.py:203 (the clip is that of the call on line 206). *)
  Definition bn_adapt (l : bnorm) (x : tensor Qc) (training : bool) : result bnorm :=
    rbind (bn_var l x training) (fun var =>
    rbind (bn_ker l var) (fun ker =>
    rbind (adapt_bw_bits lg (q_skip (m_kq l)) (q_fbw (m_kq l)) ker) (fun t =>
    rbind (clipped (q_clip (m_kq l)) t) (fun f => Ok (with_kq l (with_fbw (m_kq l) f)))))).

  (** The bit operations of lines 210-216; [ib] is input_bw. *)
  Definition bn_bops (l : bnorm) (x : tensor Qc) (training : bool) (ib : tensor Z) (n1 : nat -> Qc) : result Z :=
    rbind (bn_var l x training) (fun var =>
    rbind (bn_ker l var) (fun ker =>
    rbind (call pw ln2 (m_kq l) ker training false n1) (fun r =>
    rbind (trained_kernel_bw (snd r) (fst r)) (fun kb =>
    rbind (bmap2 0%Z 0%Z Z.mul ib kb) (fun t => Ok (zsum (data t))))))).

  (** forward, batchnorm_base.py:186-218, with [adapt] the two flags of line 202 and [ib] the input_bw of line 210 (None
      without a last layer): the output, the layer afterwards, and the new value of self.bops (None: not assigned). *)
  Definition bn_call (l : bnorm) (adapt : bool) (x : tensor Qc) (training record : bool) (ib : option (tensor Z))
      (n1 n2 n3 : nat -> Qc) : result (tensor Qc * bnorm * option Z) :=
    if (training && negb (can_update l x))%bool then Raise else
    rbind (if adapt then bn_adapt l x training else Ok l) (fun l1 =>
    rbind (bnorm_forward rsqrt pw ln2 l1 x training record n1 n2 n3) (fun yl =>
    rbind (match ib with None => Ok None | Some b => rbind (bn_bops l1 x training b n1) (fun z => Ok (Some z)) end) (fun bo =>
    Ok (fst yl, snd yl, bo)))).

  (** compute_exact_bops, batchnorm_base.py:223-234; [prev] is the layer it reads.  get_bits_exact quantizes again
      (quantizer.py:269). *)
  Definition bn_exact_bops (prev : hlayer) (l : bnorm) : result Z :=
    rbind (bn_ker l (m_var l)) (fun ker =>
    rbind (call pw ln2 (m_kq l) ker false false (fun _ => qz 0)) (fun r =>
    rbind (forward pw ln2 (snd r) (fst r) false false (fun _ => qz 0)) (fun w =>
    rbind (act_bw_exact prev) (fun ib =>
    rbind (bmap2 0%Z 0%Z Z.mul ib (mkT (shape (fst w)) (kernel_bw_exact fl (data (fst w))))) (fun t => Ok (zsum (data t))))))).

  (** ** Graphs: the python flags of line 202 are read when a call is traced, the operations run later (tf.function; keras
      traces every layer once, in a graph it throws away, when a functional model is built).
      Simplified: tracing does not fail. *)
  Inductive bn_event : Type :=
  | BTrace
  | BRun (n : nat) (x : tensor Qc) (training record : bool)
  | BEager (x : tensor Qc) (training record : bool).
  (** The layer, the conjunction of the flags, and for every traced graph whether it adapts. (batchnorm_base.py:202-204) *)
  Definition bn_state : Type := bnorm * bool * list bool.
  Definition bn_step (n1 n2 n3 : nat -> Qc) (s : bn_state) (e : bn_event) : result bn_state :=
    let '(l, flag, graphs) := s in
    match e with
    | BTrace => Ok (l, false, graphs ++ [flag])%list
    | BRun n x training record =>
        match nth_error graphs n with
        | None => Raise
        | Some adapts => rbind (bn_call l adapts x training record None n1 n2 n3) (fun r => Ok (snd (fst r), flag, graphs))
        end
    | BEager x training record => rbind (bn_call l flag x training record None n1 n2 n3) (fun r => Ok (snd (fst r), false, graphs))
    end.
  Fixpoint bn_events (n1 n2 n3 : nat -> Qc) (h : list bn_event) (s : bn_state) : result bn_state :=
    match h with
    | [] => Ok s
    | e :: h' => rbind (bn_step n1 n2 n3 s e) (fun s' => bn_events n1 n2 n3 h' s')
    end.
End L.

(** ** Conversion to keras *)

(** The weights of the layer by name, trainable ones first (base.py:47, 92, 131; batchnorm_base.py:64-93, 173).  [prefix] is the name of
    the layer with a slash. *)
Definition bn_weights (prefix : string) (a : bnargs) (l : bnorm) (beta : Qc) : list (string * tensor Qc) :=
  let n s := String.append prefix s in
  (n "kernel_bw:0", q_fbw (m_kq l))%string :: (n "activation_bw:0", q_fbw (m_paq l))%string ::
  (if ba_center a then [(n "bn_beta:0", m_beta l)]%string else []) ++ (if ba_scale a then [(n "bn_gamma:0", m_gamma l)]%string else []) ++
  [("beta:0", mkT [] [beta])]%string ++
  (if ba_center a then [(n "moving_mean:0", m_mean l)]%string else []) ++ (if ba_scale a then [(n "moving_variance:0", m_var l)]%string else []).

(** The keras layer of to_keras_layer, convert.py:224-258: get_keras_config (base.py:264-266) knows none of the arguments, so it is a
    BatchNormalization over the last axis with gamma, beta and moving statistics of [c] elements. *)
Definition keras_bn (prefix : string) (c : nat) : dst_layer :=
  let n s v := (String.append prefix s, mkT [c] (repeat v c)) in
  mkDst None None [n "gamma:0" (qz 1); n "beta:0" (qz 0); n "moving_mean:0" (qz 0); n "moving_variance:0" (qz 1)]%string.

(** to_keras_layer for a built layer with input shape [dims] behind the batch axis, convert.py:224-258. *)
Definition bn_to_keras (sname kname : string) (a : bnargs) (l : bnorm) (beta : Qc) (dims : list nat)
  : result (list (string * tensor Qc) * list string) :=
  copy_fused_weights (mkSrc None None None None (bn_weights sname a l beta)) (keras_bn kname (last dims 1)).

(** ** Saving *)

(** get_config, base.py:254-262, keeps the quantizer configurations and beta; from_config calls the constructor with
    the defaults of batchnorm_base.py:138-142 and base.py:54. *)
Definition bn_reload (a : bnargs) : bnargs := mkBA [-1]%Z (Q2Qc (99 # 100)) (Q2Qc (1 # 1000)) true true true.
