(** Specification vocabulary for tracing a model over a dataset. *)
From Coq Require Import ZArith Qcanon List Bool.
From Verif Require Import Base.Num Base.Tensor Model.FixedPoint Model.Quantizer Model.Layers Model.Graph Model.Trace
  Spec.Fixed Spec.Quant Spec.History Spec.Layer.
Import ListNotations.
Local Open Scope nat_scope.

(** The quantizer shares bitwidths over the batch and possibly leading
    dimensions of samples of shape [out]: the shapes for which recording works (C25). *)
Definition recordable (q : hgq) (out : list nat) : Prop :=
  exists pre rest, out = pre ++ rest /\ prefix_skip (q_skip q) (S (length pre)) /\
    reg_ok (S (length pre)) rest (q_fbw q) /\ reg_ok (S (length pre)) rest (q_min q) /\ reg_ok (S (length pre)) rest (q_max q).

(** A layer object ready for inference: well formed, recordable, with all
    bitwidths inside their clip range (as after any call, C15). *)
Definition obj_ok (o : hobj) : Prop :=
  let l := o_layer o in
  layer_ok l /\ recordable (l_paq l) (l_out l) /\ bits_clipped (l_paq l) /\
  match l_op l with Linear _ _ kq _ _ => bits_clipped kq | Fn _ => True end.

(** Every leaf of k satisfies P. *)
Inductive leaves {L} (P : L -> Prop) : klayer L -> Prop :=
| leaves_leaf x : P x -> leaves P (Leaf x)
| leaves_sub nin nodes outs : (forall k ins, In (k, ins) nodes -> leaves P k) -> leaves P (Sub nin nodes outs).

(** A layer of an HGQ model (no proxy quantizers). *)
Definition hgq_layer (x : layer) : Prop := match snd x with KFpq _ _ => False | _ => True end.

(** n samples for each input of the model. *)
Definition dataset (n : nat) (data : list (list sample)) : Prop := Forall (fun d => length d = n) data /\ data <> [].

(** Sample j of every input. *)
Definition sample_of (data : list (list sample)) (j : nat) : list sample := map (fun d => nth j d []) data.

(** The registers of group g hold the finite range [mn, mx]. *)
Definition holds_range (q : hgq) (g : nat) (mn mx : Qc) : Prop :=
  nth g (data (q_min q)) PosInf = Fin mn /\ nth g (data (q_max q)) NegInf = Fin mx.

(** y is x quantized at inference with r fractional bits (C11). *)
Definition quantized (q : hgq) (r : Z) (x y : Qc) : Prop :=
  if Z.eqb (q_strategy q) 3 then floor_on_grid r x y else round_on_grid r x y.

(** o' is o with other registers. *)
Definition same_but_registers (o o' : hobj) : Prop :=
  exists mn mx, o' = with_paq o (with_minmax (l_paq (o_layer o)) mn mx).

(** ** Models that can be turned into a proxy model *)

(** Value x is representable with the format c. *)
Definition fits_b (c : qcfg) (x : Qc) : bool :=
  let v := (x * pow2 (bits c - ints c))%Qc in
  let n := qfloor v in
  (qeqb v (qz n) && if Z.eqb (kn c) 0 then Z.leb 0 n && Z.ltb n (2 ^ bits c)
                    else Z.leb (- 2 ^ (bits c - 1)) n && Z.ltb n (2 ^ (bits c - 1)))%bool.
(** A Signature layer is a promise that its input has the given precision. *)
Definition promise (x : layer) (ins : list (list sample)) : bool :=
  match snd x with
  | KSig c out =>
      forallb (forallb (fun s => forallb (fun e => fits_b (nth e (data c) (mkCfg 0 0 0)) (nth e s (qz 0))) (seq 0 (prodn out)))) ins
  | _ => true
  end.
(** Running the model on the batch B keeps every promise. *)
Definition checked (pw : Qc -> Qc) (ln2 : Qc) (x : layer) (ins : list (list sample)) (st : store) : result (list sample * store) :=
  if promise x ins then call_layer pw ln2 x ins st else Raise.
Definition promises_kept (pw : Qc -> Qc) (ln2 : Qc) (m : klayer layer) (B : list (list sample)) (st : store) : Prop :=
  exists r, run (checked pw ln2) m B st = Ok r.

(** What a layer object with the given activation computes. *)
Definition bounded_fn (o : hobj) (lo hi : Z) : Prop :=
  exists g, l_op (o_layer o) = Fn g /\ (forall x e, e < prodn (l_out (o_layer o)) -> (qz lo <= nth e (g x) (qz 0))%Qc /\ (nth e (g x) (qz 0) <= qz hi)%Qc) /\
  forall f r, In f (data (q_fbw (l_paq (o_layer o)))) -> nearest_even f r -> (0 <= r)%Z.
Definition identity_fn (o : hobj) : Prop :=
  exists g, l_op (o_layer o) = Fn g /\ o_ins o = [l_out (o_layer o)] /\ forall s, length s = prodn (l_out (o_layer o)) -> g [s] = s.
Definition act_ok (o : hobj) : Prop :=
  match o_act o with
  | ASoftmax | ASigmoid => bounded_fn o 0 1
  | ATanh => bounded_fn o (-1) 1
  | ALinear => identity_fn o
  | AOther => True
  end.
Definition sig_ok (c : tensor qcfg) (out : list nat) : Prop :=
  shape c = 1 :: out /\ Forall (fun q => (kn q = 0 \/ kn q = 1)%Z /\ (1 <= bits q)%Z) (data c) /\ length (data c) = prodn out.
Definition supported (st : store) (m : klayer layer) (x : layer) : Prop :=
  match snd x with
  | KH i => In i (top_layers m) /\ exists o, nth_error st i = Some o /\ act_ok o
  | KQuant i => In i (top_layers m) /\ exists o, nth_error st i = Some o /\ act_ok o /\ identity_fn o /\ l_relu (o_layer o) = false
  | KSig c out => sig_ok c out
  | KFpq _ _ => False
  | _ => True
  end.

(** The bounds within which the exact bitwidths are computed (C19). *)
Definition in_bounds (q : hgq) : Prop :=
  forall g, g < length (data (q_fbw q)) -> forall r mn mx, frac_bits q g r -> holds_range q g mn mx ->
    (-32 <= r <= 93)%Z /\ (- pow2 32 <= mn)%Qc /\ (mx < pow2 32)%Qc.

(** B is a batch of samples of the dataset. *)
Definition batch_of (n : nat) (data : list (list sample)) (B : list (list sample)) : Prop :=
  exists js, js <> [] /\ Forall (fun j => j < n) js /\ B = map (fun d => map (fun j => nth j d []) js) data.

(** Layers of a deployable model. *)
Definition proxy_layer (x : layer) : Prop := match snd x with KKeras _ | KFpq _ _ | KRelu => True | _ => False end.

Fixpoint depth {L} (k : klayer L) : nat :=
  match k with
  | Leaf _ => 1
  | Sub _ nodes _ => S (fold_right (fun n a => Nat.max (depth (fst n)) a) 0 nodes)
  end.

(** All quantized layers of a model, nested models included; within one model
    an object is listed once. *)
Fixpoint all_layers (m : klayer layer) : list nat :=
  match m with
  | Leaf _ => []
  | Sub _ nodes _ => top_layers m ++ flat_map (fun n => all_layers (fst n)) nodes
  end.

(** The object x stands for, if any, satisfies P. *)
Definition on_object (P : nat -> Prop) (x : layer) : Prop :=
  match snd x with KH i | KQuant i => P i | _ => True end.
(** Object i exists and does not record. *)
Definition quiet (st : store) (i : nat) : Prop := exists o, nth_error st i = Some o /\ o_record o = false.

(** b is the sum of the BOPs values of the listed objects. *)
Definition bops_sum (st : store) (ids : list nat) (b : Qc) : Prop :=
  exists ds, Forall2 (fun i d => exists o, nth_error st i = Some o /\ o_bops o = d) ids ds /\ b = fold_right Qcplus (qz 0) ds.
