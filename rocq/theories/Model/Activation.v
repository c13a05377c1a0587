(** The activation argument of dense and convolution layers: the check of HLayerBase.__init__ (src/HGQ/layers/base.py:57-64),
    _relu_act (base.py:89-91), and what the layer does with it (dense.py:61-72, conv.py:116-127).  (The proxy of the layer, which
    only looks at _relu_act, is [to_proxy] of Model/Layers.v with [l_relu] = _relu_act; to_keras_layer replaces every other
    activation by 'linear', convert.py:240-243.) *)
From Coq Require Import ZArith Qcanon List Bool String Ascii.
From Verif Require Import Base.Num Base.Tensor Model.Quantizer Model.Layers.
Import ListNotations.
Local Open Scope Z_scope.

(** Which object a function is: tf.keras.activations.relu (base.py:91), or another one. *)
Inductive fobject : Type := KerasRelu | OtherFunction.
(** An activation: its __name__ (None: no such attribute), the object, and what it does to a number.
    (layers/base.py:58-64, misc.py:32-33) *)
Record actf : Type := mkAct { f_name : option string; f_obj : fobject; f_val : Qc -> Qc }.

(** The argument: None, a string, something callable, or anything else (base.py:57-63). *)
Inductive act_arg : Type := NoActivation | AName (s : string) | ACallable (f : actf) | AObject.

(** str.lower() on ASCII, base.py:60, 62 *)
Definition lower_char (c : ascii) : ascii :=
  let n := nat_of_ascii c in if (Nat.leb 65 n && Nat.leb n 90)%bool then ascii_of_nat (n + 32) else c.
Fixpoint lower (s : string) : string := match s with EmptyString => EmptyString | String c s' => String (lower_char c) (lower s') end.

(** base.py:57-64; [hactivation]: type(self).__name__ is HActivation.  A callable without __name__ is an AttributeError. *)
Definition check_activation (hactivation : bool) (a : act_arg) : result unit :=
  match a with
  | NoActivation => Ok tt
  | _ =>
    if hactivation then Ok tt
    else
      let known s := if existsb (String.eqb s) ["relu"; "linear"]%string then Ok tt else Raise in
      match a with
      | AName s => known (lower s)
      | ACallable f => match f_name f with Some s => known (lower s) | None => Raise end
      | _ => Raise
      end
  end.

(** keras.activations.get, called by the keras constructor; [env] looks a name up, [linear] is keras.activations.linear.
    (super().__init__ at layers/base.py:66) *)
Definition keras_get (env : string -> option actf) (linear : actf) (a : act_arg) : result actf :=
  match a with
  | NoActivation => Ok linear
  | AName s => match env s with Some f => Ok f | None => Raise end
  | ACallable f => Ok f
  | AObject => Raise
  end.

(** _relu_act, base.py:89-91 *)
Definition relu_act (f : actf) : bool := match f_obj f with KerasRelu => true | OtherFunction => false end.

(** jit_forward, dense.py:61-72, conv.py:116-127, with the activation f of line 70 (125). *)
Definition act_forward (pw : Qc -> Qc) (ln2 : Qc) (f : actf) (l : hlayer) (xs : list (list sample)) (training record : bool)
    (nk nb na : nat -> Qc) : result (list sample * hlayer) :=
  rbind (pre_activation pw ln2 l xs training nk nb) (fun zo =>
  rbind (call pw ln2 (l_paq l) (batch_tensor (l_out l) (fst zo)) training record na) (fun yq =>
  Ok (map (map (f_val f)) (samples (l_out l) (fst yq)), mkL (snd zo) (snd yq) (l_relu l) (l_loc l) (l_out l)))).
