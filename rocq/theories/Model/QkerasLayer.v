(** Model of src/HGQ/proxy/plugins/qkeras.py:96-151: qlayer_to_keras_layer and
    qlayer_to_proxy_layer.  QKeras and Keras are not part of /repo: a Keras class is
    whatever keras.layers provides under a name ([kclass]). *)
From Coq Require Import ZArith Qcanon List Bool String Ascii.
From Verif Require Import Base.Num Base.Tensor Model.FixedPoint Model.Layers Model.Qkeras Model.Weights.
Import ListNotations.
Local Open Scope string_scope.

Section Config.
  Variable V : Type.                                     (* values of a configuration *)

  (** A class of keras.layers: the keywords its constructor accepts and the ones it
      insists on (qkeras.py:117), the variables it creates for an input shape (119,
      their initial values), and what a call computes from the configuration and the
      variables (148). *)
  Record kclass : Type := mkKC {
    kc_accepted : list string; kc_required : list string;
    kc_init : list (string * V) -> list nat -> list (string * tensor Qc);
    kc_call : list (string * V) -> list (string * tensor Qc) -> tensor Qc -> result (tensor Qc) }.

  (** A QKeras layer: what qkeras.py:96-151 reads of it.  [q_weights] are its variables
      by attribute name; [q_kernel_q], [q_bias_q] are kernel_quantizer_internal and
      bias_quantizer_internal (None: no quantizer); [q_activation] and [q_quantizer] are
      the attributes of that name (None: no such attribute; only QActivation has a
      quantizer); [q_quantizer_cls] is the test of line 107. *)
  Record qlayer : Type := mkQL {
    q_cls : string; q_conf : list (string * V); q_input_shape : list nat;
    q_weights : list (string * tensor Qc); q_use_bias : bool;
    q_kernel_q : option (tensor Qc -> tensor Qc); q_bias_q : option (tensor Qc -> tensor Qc);
    q_is_activation : bool; q_activation : option qk_act; q_quantizer : option qk_act; q_quantizer_cls : bool }.

  (** Dictionaries with string keys in insertion order. (conf at qkeras.py:101) *)
  Definition dlookup {A} (d : list (string * A)) (k : string) : option A :=
    match find (fun e => String.eqb (fst e) k) d with Some e => Some (snd e) | None => None end.
  (** [del d[k]]: KeyError without the key. (qkeras.py:114) *)
  Definition ddel {A} (d : list (string * A)) (k : string) : result (list (string * A)) :=
    match dlookup d k with
    | None => Raise
    | Some _ => Ok (filter (fun e => negb (String.eqb (fst e) k)) d)
    end.

  (** qkeras.py:110 *)
  Definition blacklist : list string := ["quantize"; "kernel_range"; "bias_range"; "constraint"; "activation"; "initializer"].

  (** The loops of qkeras.py:111-115.  The [continue] of line 115 goes on with the next
      word, not with the next key. *)
  Definition strip_key (k : string) (conf : list (string * V)) : result (list (string * V)) :=
    fold_left (fun acc k_rm => rbind acc (fun conf => if contains k_rm k then ddel conf k else Ok conf)) blacklist (Ok conf).
  Definition strip (conf : list (string * V)) : result (list (string * V)) :=
    fold_left (fun acc k => rbind acc (strip_key k)) (map fst conf) (Ok conf).

  (** [klayer.name.assign(v)]: AttributeError without the attribute, an error when the shapes differ.
    (qkeras.py:122, 125) *)
  Definition set_weight (ws : list (string * tensor Qc)) (name : string) (v : tensor Qc) : result (list (string * tensor Qc)) :=
    match dlookup ws name with
    | None => Raise
    | Some old => if list_eq_dec Nat.eq_dec (shape old) (shape v)
                  then Ok (map (fun e => if String.eqb (fst e) name then (fst e, v) else e) ws) else Raise
    end.

  (** A built Keras layer: class, configuration, variables. (qkeras.py:117-119) *)
  Record klayer : Type := mkKL { kl_class : kclass; kl_conf : list (string * V); kl_weights : list (string * tensor Qc) }.
  Definition klayer_call (l : klayer) (x : tensor Qc) : result (tensor Qc) := kc_call (kl_class l) (kl_conf l) (kl_weights l) x.

  (** The class name without its first letter, qkeras.py:97. *)
  Definition base_cls_name (s : string) : string := match s with String _ s' => s' | EmptyString => "" end.

  (** qkeras.py:120-122 and 123-125 *)
  Definition copy_q (q : option (tensor Qc -> tensor Qc)) (w : tensor Qc) : tensor Qc := match q with Some f => f w | None => w end.

  (** qlayer_to_keras_layer, qkeras.py:96-126; [lib] is keras.layers.  The result is None
      for a QActivation with a QKeras quantizer. *)
  Definition qlayer_to_keras_layer (lib : string -> option kclass) (l : qlayer) : result (option klayer) :=
    match lib (base_cls_name (q_cls l)) with
    | None => Raise
    | Some cls =>
        if (q_is_activation l && q_quantizer_cls l)%bool then Ok None
        else
        rbind (strip (q_conf l)) (fun conf =>
        if negb (forallb (fun e => existsb (String.eqb (fst e)) (kc_accepted cls)) conf) then Raise
        else if negb (forallb (fun k => match dlookup conf k with Some _ => true | None => false end) (kc_required cls)) then Raise
        else
        let ws := kc_init cls conf (q_input_shape l) in
        rbind (match dlookup (q_weights l) "kernel" with
               | Some w => set_weight ws "kernel" (copy_q (q_kernel_q l) w)
               | None => Ok ws end) (fun ws =>
        rbind (match dlookup (q_weights l) "bias" with
               | Some w => if q_use_bias l then set_weight ws "bias" (copy_q (q_bias_q l) w) else Ok ws
               | None => Ok ws end) (fun ws =>
        Ok (Some (mkKL cls conf ws)))))
    end.

  (** What the transformer returns: a layer, or a model of a layer and activations.
    (qkeras.py:133-151) *)
  Inductive qproxy : Type := QPLayer (l : klayer) | QPModel (l : option klayer) (acts : list qk_layer).

  (** qlayer_to_proxy_layer, qkeras.py:129-151 *)
  Definition qlayer_to_proxy_layer (lib : string -> option kclass) (SATm : string) (l : qlayer) : result qproxy :=
    rbind (qlayer_to_keras_layer lib l) (fun kl =>
    match q_activation l with
    | None => match kl with Some k => Ok (QPLayer k) | None => Raise end
    | Some a =>
        let activation := match q_quantizer l with Some q => q | None => a end in
        rbind (to_layers activation SATm) (fun act_layers => Ok (QPModel kl act_layers))
    end).

  (** Calling it, qkeras.py:146-151: element by element for the activations. *)
  Definition tchain (acts : list qk_layer) (x : tensor Qc) : result (tensor Qc) :=
    rbind (rseq (map (chain acts) (data x))) (fun ys => Ok (mkT (shape x) ys)).
  Definition qproxy_call (p : qproxy) (x : tensor Qc) : result (tensor Qc) :=
    match p with
    | QPLayer k => klayer_call k x
    | QPModel kl acts => rbind (match kl with Some k => klayer_call k x | None => Ok x end) (tchain acts)
    end.
End Config.
Arguments mkKC {V}. Arguments kc_accepted {V}. Arguments kc_required {V}. Arguments kc_init {V}. Arguments kc_call {V}.
Arguments mkQL {V}. Arguments q_cls {V}. Arguments q_conf {V}. Arguments q_input_shape {V}. Arguments q_weights {V}.
Arguments q_use_bias {V}. Arguments q_kernel_q {V}. Arguments q_bias_q {V}. Arguments q_is_activation {V}.
Arguments q_activation {V}. Arguments q_quantizer {V}. Arguments q_quantizer_cls {V}.
Arguments strip_key {V}. Arguments strip {V}. Arguments mkKL {V}. Arguments kl_class {V}. Arguments kl_conf {V}. Arguments kl_weights {V}.
Arguments klayer_call {V}. Arguments qlayer_to_keras_layer {V}. Arguments QPLayer {V}. Arguments QPModel {V}.
Arguments qlayer_to_proxy_layer {V}. Arguments qproxy_call {V}.
