(** Vocabulary for C85: what calibrating from scratch starts from. *)
From Coq Require Import ZArith Qcanon List Bool.
From Verif Require Import Base.Num Base.Tensor Model.Quantizer Model.Layers Model.Graph Model.Trace.
Import ListNotations.
Local Open Scope nat_scope.

(** The two layers have the same weights, bitwidths and settings.  Recorded
    ranges, the recording flag and the BOPs may differ. *)
Definition same_training (o o' : hobj) : Prop :=
  o_act o' = o_act o /\ o_ins o' = o_ins o /\
  exists mn mx, o_layer o' = mkL (l_op (o_layer o)) (with_minmax (l_paq (o_layer o)) mn mx) (l_relu (o_layer o)) (l_loc (o_layer o)) (l_out (o_layer o)).

(** Two states of a model: its quantized layers have the same training, all
    other objects (layers of nested models among them) are the same. *)
Definition same_model (m : klayer layer) (st st' : store) : Prop :=
  length st' = length st /\ forall i o o', nth_error st i = Some o -> nth_error st' i = Some o' ->
    if in_dec Nat.eq_dec i (top_layers m) then same_training o o' else o' = o.

(** The bit operations do not depend on the bops variables, which are only
    written. *)
Definition without_bops (o : hobj) : hobj := mkO (o_layer o) (o_record o) (o_act o) (o_ins o) (qz 0).
Definition only_writes_bops (eb : store -> nat -> result Qc) : Prop :=
  forall s s' i, map without_bops s = map without_bops s' -> eb s i = eb s' i.

(** A layer fresh from load_model: nothing recorded, not recording, no BOPs. *)
Definition fresh_copy (o : hobj) : hobj :=
  let l := o_layer o in mkO (mkL (l_op l) (minmax_reg_reset (l_paq l)) (l_relu l) (l_loc l) (l_out l)) false (o_act o) (o_ins o) (qz 0).
