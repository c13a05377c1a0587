(** Model of src/HGQ/proxy/plugins/qkeras.py: qkeras_quantizer_to_layers, on one element. *)
From Coq Require Import ZArith Qcanon List Bool String.
From Verif Require Import Base.Num Base.Tensor Model.FixedPoint Model.Layers.
Import ListNotations.
Local Open Scope Z_scope.
Local Open Scope string_scope.

(** The scale parameter of a QKeras quantizer: None, an "auto" string, or a number.
    (qkeras.py:51) *)
Inductive qk_alpha : Type := ANone | AAuto | ANum (a : Qc).

(** The activation of a QKeras layer: the attributes qkeras.py reads, and those
    of quantized_relu and binary it does not read. (qkeras.py:50-93) *)
Inductive qk_act : Type :=
| QLinear                                                       (* keras.activations.linear *)
| QBits (bits integer symmetric : Z) (keep_negative : bool) (alpha : qk_alpha)
| QRelu (bits integer : Z) (negative_slope : Qc) (use_sigmoid : bool)
| QBinary (use_01 : bool) (alpha : qk_alpha)                    (* binary, stochastic_binary *)
| QTernary                                                      (* ternary, stochastic_ternary *)
| QPo2                                                          (* quantized_po2, quantized_relu_po2 *)
| QOther (f : Qc -> Qc).                                        (* any other callable *)

(** The layers it produces. (qkeras.py:44-93) *)
Inductive qk_layer : Type :=
| KRelu                                             (* keras.layers.Activation('relu') *)
| KFixed (k b i : Z) (R V : string)                 (* FixedPointQuantizer(k, b, i, R, S) *)
| KBinary                                           (* qkeras.QActivation(qkeras.binary()) *)
| KActivation (f : Qc -> Qc).                       (* keras.layers.Activation(quantizer) *)

(** [alpha == 1] (qkeras.py:51) *)
Definition alpha_is_one (a : qk_alpha) : bool := match a with ANum q => qeqb q (qz 1) | _ => false end.

(** qkeras_quantizer_to_layers, qkeras.py:37-93.  The functions registered for
    ternary (86-88) and po2 (91-93) take one argument and are called with two
    (line 138), so both raise. *)
Definition to_layers (q : qk_act) (SATm : string) : result (list qk_layer) :=
  match q with
  | QLinear => Ok []
  | QBits bits integer symmetric keep_negative alpha =>
      if negb (alpha_is_one alpha) then Raise
      else
        let k := if keep_negative then 1 else 0 in
        let i := integer + k in
        let SATm := if negb (Z.eqb symmetric 0) then "SAT_SYM" else SATm in
        if (negb (Z.eqb symmetric 0) && negb (Z.eqb symmetric 1))%bool then Raise
        else Ok [KFixed k bits i "RND_CONV" SATm]
  | QRelu bits integer _ _ => Ok [KRelu; KFixed 0 bits integer "RND_CONV" "SAT"]
  | QBinary use_01 _ => if use_01 then Raise else Ok [KBinary; KFixed 1 2 2 "RND" "WRAP"]
  | QTernary => Raise
  | QPo2 => Raise
  | QOther f => Ok [KActivation f]
  end.

(** The layers applied to one element (qkeras.py:146-150); qkeras.binary() without
    arguments is the sign, +1 at zero. *)
Definition layer_elem (l : qk_layer) (x : Qc) : result Qc :=
  match l with
  | KRelu => Ok (relu x)
  | KFixed k b i R V => let c := init_elem (mkCfg k b i) in gfixed_quantizer x (kn c) (bits c) (ints c) R V
  | KBinary => Ok (if qltb x (qz 0) then - qz 1 else qz 1)%Qc
  | KActivation f => Ok (f x)
  end.
Definition chain (ls : list qk_layer) (x : Qc) : result Qc :=
  fold_left (fun acc l => rbind acc (layer_elem l)) ls (Ok x).
