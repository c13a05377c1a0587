(** What a QKeras layer computes, and which of its settings its Keras base class shares. *)
From Coq Require Import ZArith Qcanon List Bool String Lia.
From Verif Require Import Base.Num Base.Tensor Spec.Fixed Spec.Qkeras Spec.Weights Model.Qkeras Model.QkerasLayer.
Import ListNotations.
Local Open Scope string_scope.

(** Settings that do not matter when the layer is applied (quantizers, ranges,
    constraints, initializers) or that are applied separately (the activation). *)
Definition setting_words : list string := ["quantize"; "kernel_range"; "bias_range"; "constraint"; "activation"; "initializer"].
Definition separate (key : string) : Prop := exists w, In w setting_words /\ substring w key.
Definition ambiguous (key : string) : Prop :=
  exists w1 w2, In w1 setting_words /\ In w2 setting_words /\ w1 <> w2 /\ substring w1 key /\ substring w2 key.

(** The activation functions of QKeras (Spec.Qkeras), where the class decides the meaning. *)
Definition activation_means (a : qk_act) (x y : Qc) : Prop :=
  match a with
  | QLinear => y = x
  | QBits bits integer symmetric keep_negative _ => quantized_bits bits integer symmetric (if keep_negative then 1 else 0)%Z x y
  | QRelu bits integer _ _ => quantized_relu bits integer x y
  | QBinary _ _ => binary (qz 1) x y
  | QOther f => y = f x
  | QTernary | QPo2 => False
  end.
(** The parameters for which the meaning above is the documented one and the proxy has an equivalent (C57). *)
Definition supported_act (SATm : string) (a : qk_act) : Prop :=
  match a with
  | QLinear | QOther _ => True
  | QBits bits _ symmetric keep_negative alpha =>
      (1 <= bits - (if keep_negative then 1 else 0))%Z /\ alpha = ANum (qz 1) /\
      (symmetric = 0%Z /\ SATm = "SAT" \/ symmetric = 1%Z)
  | QRelu bits _ slope sigmoid => (1 <= bits)%Z /\ slope = qz 0 /\ sigmoid = false
  | QBinary use_01 alpha => use_01 = false /\ alpha = ANone
  | QTernary | QPo2 => False
  end.

(** The settings shared with the base class, in order. *)
Inductive shared_part {V} : list (string * V) -> list (string * V) -> Prop :=
| sp_nil : shared_part [] []
| sp_keep k v c c' : ~ separate k -> shared_part c c' -> shared_part ((k, v) :: c) ((k, v) :: c')
| sp_drop k v c c' : separate k -> shared_part c c' -> shared_part ((k, v) :: c) c'.

(** A Keras class looks its settings and variables up by name, and ignores the
    settings that are applied separately. *)
Definition by_name {V} (cls : kclass V) : Prop := forall c c' ws ws' x,
  NoDup (map fst c) -> NoDup (map fst c') -> NoDup (map fst ws) -> NoDup (map fst ws') ->
  (forall k v, ~ separate k -> (In (k, v) c <-> In (k, v) c')) -> (forall e, In e ws <-> In e ws') ->
  kc_call cls c ws x = kc_call cls c' ws' x.

(** The variables a QKeras layer computes with: kernel and bias after their quantizers. *)
Definition effective {V} (l : qlayer V) : list (string * tensor Qc) :=
  map (fun e => (fst e,
    if String.eqb (fst e) "kernel" then match q_kernel_q l with Some q => q (snd e) | None => snd e end
    else if String.eqb (fst e) "bias" then match q_bias_q l with Some q => q (snd e) | None => snd e end
    else snd e)) (q_weights l).

(** The function of a QKeras layer derived from the class cls, with the activation a. *)
Definition qkeras_computes {V} (cls : kclass V) (l : qlayer V) (a : qk_act) (x y : tensor Qc) : Prop :=
  exists z, kc_call cls (q_conf l) (effective l) x = Ok z /\ shape y = shape z /\ Forall2 (activation_means a) (data z) (data y).
