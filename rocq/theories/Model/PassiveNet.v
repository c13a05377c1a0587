(** Model of how a layer finds the bitwidths of its input through other layers: last_layer, input_bw and
    input_bw_exact (src/HGQ/layers/base.py:20-39), act_bw and act_bw_exact of the passive layers
    (src/HGQ/layers/passive_layers.py:13-146) and the two counts of dense and convolution layers that read them.

    Layers are numbered; a layer of the network knows its calls (_inbound_nodes) and what each was called on
    (inbound_layers: one layer, or a list).  AssertionError is told apart from other exceptions, because
    input_bw catches it (base.py:29-32). *)
From Coq Require Import ZArith Qcanon List Bool.
From Verif Require Import Base.Num Base.Tensor Model.Quantizer Model.Layers Model.Bops Model.TrainBops Model.Passive.
Import ListNotations.
Local Open Scope nat_scope.

(** inbound_layers of one call: a layer, or a list of layers (base.py:22-24, passive_layers.py:104-105). *)
Inductive inbound : Type := One (n : nat) | Many (ns : list nat).
(** A quantized layer (HLayerBase); Signature with its bits (before build) and input shape; PReshape, PFlatten,
    PDropout or PPermute with its output shape; PConcatenate with its axis (batch axis counted); a pooling layer
    with its output shape; a layer without bitwidths (keras InputLayer).
    (passive_layers.py:13-182, base.py:18-37) *)
Inductive bkind : Type :=
| BQuant (l : hlayer) | BSignature (bits : tensor Z) (inp : list nat) | BReshape (out : list nat)
| BConcat (axis : nat) | BPool (p : pool) (out : list nat) | BInput.
Record bnode : Type := mkBN { b_kind : bkind; b_calls : list inbound }.
Definition bnet : Type := list bnode.

(** A value, an AssertionError, or another exception. (base.py:28-32) *)
Inductive outcome (A : Type) : Type := Val (a : A) | Asserts | Fails.
Arguments Val {A} a.
Arguments Asserts {A}.
Arguments Fails {A}.
Definition of_result {A} (r : result A) : outcome A := match r with Ok a => Val a | Raise => Fails end.
Definition obind {A B} (o : outcome A) (f : A -> outcome B) : outcome B :=
  match o with Val a => f a | Asserts => Asserts | Fails => Fails end.
Fixpoint omap {A B} (f : A -> outcome B) (l : list A) : outcome (list B) :=
  match l with [] => Val [] | x :: t => obind (f x) (fun y => obind (omap f t) (fun r => Val (y :: r))) end.

(** tf.nn.max_pool of the bits, passive_layers.py:123, 128, 141, 146 *)
Definition pool_bw (p : pool) (out : list nat) (t : tensor Z) : result (tensor Z) :=
  if (Nat.eqb (List.length (data t)) (p_h p * p_w p * p_c p) && Nat.eqb (prodn out) (pool_size p))%bool
  then Ok (mkT (1 :: out) (pool_act_bw p (data t))) else Raise.

(** last_layer, base.py:20-24 *)
Definition last_layer (calls : list inbound) : outcome nat :=
  match calls with
  | [One n] => Val n
  | _ => Asserts
  end.

(** input_bw, base.py:26-32, given act_bw of the other layers: None when an assertion fails on the way. *)
Definition input_bw (bw : nat -> outcome (tensor Z)) (calls : list inbound) : outcome (option (tensor Z)) :=
  if Nat.ltb 1 (List.length calls) then Asserts
  else match obind (last_layer calls) bw with
       | Val t => Val (Some t)
       | Asserts => Val None
       | Fails => Fails
       end.

(** input_bw_exact, base.py:34-37 (int8 widths are read as floats) *)
Definition input_bw_exact (bw : nat -> outcome (tensor Z)) (calls : list inbound) : outcome (tensor Z) :=
  if Nat.ltb 1 (List.length calls) then Asserts else obind (last_layer calls) bw.

(** tf.reshape(None, ..) and tf.nn.max_pool(None, ..) raise. (passive_layers.py:23, 123) *)
Definition need {A} (o : outcome (option A)) : outcome A :=
  obind o (fun x => match x with Some a => Val a | None => Fails end).

(** act_bw: base.py:183-192 for quantized layers; passive_layers.py:19-24, 59-62, 94-106, 120-123, 138-141.  PConcatenate
    concatenates the list of widths, and then the one tensor it got (line 99), which changes nothing; len() of a single
    layer is a TypeError (line 104). *)
Fixpoint act_bw_at (fuel : nat) (net : bnet) (n : nat) : outcome (tensor Z) :=
  match fuel with
  | O => Fails
  | S fu =>
      match nth_error net n with
      | None => Fails
      | Some b =>
          match b_kind b with
          | BQuant l => of_result (act_bw l)
          | BSignature bits inp => of_result (signature_act_bw bits inp)
          | BReshape out => obind (need (input_bw (act_bw_at fu net) (b_calls b))) (fun t => of_result (p_act_bw t out))
          | BPool p out => obind (need (input_bw (act_bw_at fu net) (b_calls b))) (fun t => of_result (pool_bw p out t))
          | BConcat axis =>
              if Nat.ltb 1 (List.length (b_calls b)) then Asserts
              else match b_calls b with
                   | [Many ns] => if Nat.leb (List.length ns) 1 then Asserts
                                  else obind (omap (act_bw_at fu net) ns) (fun ts => of_result (concat_act_bw axis ts))
                   | _ => Fails
                   end
          | BInput => Fails
          end
      end
  end.

(** act_bw_exact: base.py:194-199; passive_layers.py:26-30, 64-66, 108-110, 125-128, 143-146.  PConcatenate looks at its
    first call, however often it was called. *)
Fixpoint act_bw_exact_of (fuel : nat) (net : bnet) (n : nat) : outcome (tensor Z) :=
  match fuel with
  | O => Fails
  | S fu =>
      match nth_error net n with
      | None => Fails
      | Some b =>
          match b_kind b with
          | BQuant l => of_result (act_bw_exact l)
          | BSignature bits inp => of_result (signature_act_bw bits inp)
          | BReshape out => obind (input_bw_exact (act_bw_exact_of fu net) (b_calls b)) (fun t => of_result (p_act_bw t out))
          | BPool p out => obind (input_bw_exact (act_bw_exact_of fu net) (b_calls b)) (fun t => of_result (pool_bw p out t))
          | BConcat axis =>
              match b_calls b with
              | Many ns :: _ => obind (omap (act_bw_exact_of fu net) ns) (fun ts => of_result (concat_act_bw axis ts))
              | _ => Fails
              end
          | BInput => Fails
          end
      end
  end.

Section B.
  Variable pw : Qc -> Qc.
  Variable ln2 : Qc.

  (** What forward does about bit operations when layer l, called as [calls], is called (dense.py:48-59, conv.py:102-114, before
      the scaling of conv.py:110): None when nothing is reported and nothing is added to the loss. *)
  Definition reported_bops (fuel : nat) (net : bnet) (calls : list inbound) (l : hlayer) : outcome (option Z) :=
    match l_op l with
    | Fn _ => Val None
    | Linear ts kernel kq _ _ =>
        obind (of_result (call pw ln2 kq kernel false false (fun _ => qz 0))) (fun r =>
        obind (input_bw (act_bw_at fuel net) calls) (fun ib =>
        match ib with
        | None => Val None
        | Some ib => obind (of_result (trained_kernel_bw (snd r) (fst r))) (fun kb =>
                     Val (Some (zsum (mac_bits ts (data ib) (data kb)))))
        end))
    end.

  (** compute_exact_bops, dense.py:74-80, conv.py:129-135 (before the scaling of line 133), base.py:242-246 *)
  Definition counted_bops (fuel : nat) (net : bnet) (calls : list inbound) (l : hlayer) : outcome Z :=
    match l_op l with
    | Fn _ => Val 0%Z
    | Linear ts kernel kq _ _ =>
        obind (of_result (layer_kernel_bw pw ln2 (fun a => a) kernel kq)) (fun kb =>
        obind (input_bw_exact (act_bw_exact_of fuel net) calls) (fun ib => Val (zsum (mac_bits ts (data ib) kb))))
    end.
End B.

(** ** Values *)

(** One sample through the passive layers at inference (the keras layers they inherit from); [src n] is the output of layer n when
    it is not a passive layer.  Tensors have batch length 1.  [BReshape] stands for reshape, flatten and dropout and [BPool] for max
    pooling here; average pooling and permute are not included. (passive_layers.py:82-182) *)
Fixpoint rlist {A B} (f : A -> result B) (l : list A) : result (list B) :=
  match l with [] => Ok [] | x :: t => rbind (f x) (fun y => rbind (rlist f t) (fun r => Ok (y :: r))) end.
Fixpoint value_at (fuel : nat) (net : bnet) (src : nat -> tensor Qc) (n : nat) : result (tensor Qc) :=
  match fuel with
  | O => Raise
  | S fu =>
      match nth_error net n with
      | None => Raise
      | Some b =>
          match b_kind b, b_calls b with
          | BReshape out, [One m] => rbind (value_at fu net src m) (fun x => reshape_values x out)
          | BPool p out, [One m] => rbind (value_at fu net src m) (fun x => Ok (mkT (1 :: out) (max_pool qmax (qz 0) p (data x))))
          | BConcat axis, [Many ns] => rbind (rlist (value_at fu net src) ns) (concat_axis axis)
          | BQuant _, _ | BSignature _ _, _ | BInput, _ => Ok (src n)
          | _, _ => Raise
          end
      end
  end.
