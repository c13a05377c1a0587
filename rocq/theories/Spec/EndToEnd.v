(** When a proxy network as the precision derivation sees it (layer kinds and
    element recipes, Spec/NetEval.v) describes a converted model that runs on
    batches of samples (Model/Trace.v).  Independent of the conversion and of
    the derivation. *)
From Coq Require Import ZArith Qcanon List Bool String Arith.
From Verif Require Import Base.Num Base.Tensor Model.FixedPoint Model.Quantizer Model.Layers Model.Graph Model.Trace Model.Precision Model.Lut Spec.Fixed Spec.Precision Spec.NetEval Spec.Firmware.
Import ListNotations.
Local Open Scope nat_scope.

Section Describes.
  Variable (s : pst) (geo : nat -> list recipe) (opaque : nat -> list (list Qc) -> list Qc).
  (** The number of elements of a sample of every layer. *)
  Variable size : nat -> nat.

  (** Every element of a quantizer's output comes from the same element of its
      input, with the format of the group it belongs to ([bw]: how many groups
      there are along each axis). *)
  Definition elementwise (n : nat) (q : fpq unit) (out : list nat) : Prop :=
    (exists c, cfgs q = mkT [] [c] /\ geo n = map (fun e => mkR [Some (0, e)] 0 []) (seq 0 (prodn out))) \/
    (exists bw, shape (cfgs q) = 1 :: bw /\ List.length (data (cfgs q)) = prodn bw /\ bshape out bw = Some out /\
       geo n = map (fun e => mkR [Some (0, e)] (bidx bw out e) []) (seq 0 (prodn out))).

  (** Layer n of the network, of kind kd and reading the layers ps, is the layer k. *)
  Definition same_layer (n : nat) (kd : pkind) (ps : list nat) (k : kind) : Prop :=
    match k with
    | KFpq q out => exists i p, kd = NFpq i /\ ps = [p] /\ nth_error s i = Some q /\ size p = prodn out /\ size n = prodn out /\ elementwise n q out
    | KRelu => exists p, kd = NActL false relu /\ ps = [p] /\ size n = size p
    | KKeras g =>
        match kd with NInput | NFpq _ | NLut _ => False | _ => True end /\
        forall xs, Forall2 (fun p x => List.length x = size p) ps xs ->
          List.length (g xs) = size n /\ layer_out s geo (fun _ => []) opaque (fun _ => None) n kd xs = Ok (g xs)
    | _ => False
    end.

  (** The layers of the network are the inputs and the layers of the model, in
      the same order, reading the same tensors. *)
  Definition describes (net : pnet) (m : klayer layer) : Prop :=
    match m with
    | Leaf _ => False
    | Sub nin nodes outs =>
        List.length net = nin + List.length nodes /\
        (forall i, i < nin -> nth_error net i = Some (NInput, [])) /\
        (forall j k ins, nth_error nodes j = Some (k, ins) -> exists x kd, k = Leaf x /\ Forall (fun r => snd r = 0) ins /\
           nth_error net (nin + j) = Some (kd, map fst ins) /\ same_layer (nin + j) kd (map fst ins) (snd x)) /\
        Forall (fun r => snd r = 0) outs
    end.
End Describes.

(** The layers whose outputs a model delivers. *)
Definition output_layers {L} (m : klayer L) : list nat := match m with Leaf _ => [] | Sub _ _ outs => map fst outs end.

(** The samples of every input have the sizes of the network's first layers and
    are finite floats. *)
Definition proper_inputs (size : nat -> nat) (ds : list (list (list Qc))) : Prop :=
  forall i d x, nth_error ds i = Some d -> In x d -> List.length x = size i /\ Forall float_value x.

(** Sample k of every input. *)
Definition sample_feed (B : list (list (list Qc))) (k : nat) : nat -> list Qc := fun i => nth k (nth i B []) [].

(** An output layer of which the firmware delivers the exact values: a quantizer
    removed after its layer, or a layer with enough bits. *)
Definition delivered (fuel : nat) (net : pnet) (s : pst) (i : nat) : Prop :=
  removed net s i = true \/ ((forall ps, nth_error net i <> Some (NInput, ps)) /\ demanding_readers fuel net s i).

(** A multiply-accumulate layer: the weight at step j of the channel u is entry
    (j, u) of the kernel with [div] columns; step j reads the input at the
    position [srcs] says, None is padding. *)
Definition kernel_taps (div : nat) (srcs : list (option nat)) (u : nat) : list (nat * nat) :=
  flat_map (fun js => match snd js with Some a => [(a, fst js * div + u)] | None => [] end) (combine (seq 0 (List.length srcs)) srcs).
Definition kernel_recipe (srcs : list (option nat)) (u : nat) : recipe := mkR (map (option_map (fun a => (0, a))) srcs) u [].
