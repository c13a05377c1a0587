(** Specification vocabulary for comparing calibrations. *)
From Coq Require Import ZArith Qcanon List Bool.
From Verif Require Import Base.Num Base.Tensor Model.FixedPoint Model.Quantizer Model.Layers Model.Graph Model.Trace Spec.Trace.
Import ListNotations.
Local Open Scope nat_scope.

(** The samples of a dataset; every sample of the first is one of the second; the same samples in any order, any number of times. *)
Definition all_samples (n : nat) (ds : list (list sample)) : list (list sample) := map (sample_of ds) (seq 0 n).
Definition part_of (n : nat) (ds : list (list sample)) (n' : nat) (ds' : list (list sample)) : Prop :=
  forall s, In s (all_samples n ds) -> In s (all_samples n' ds').
Definition same_samples (n : nat) (ds : list (list sample)) (n' : nat) (ds' : list (list sample)) : Prop :=
  part_of n ds n' ds' /\ part_of n' ds' n ds.

Definition ext_le (a b : ext) : Prop :=
  match a, b with
  | NegInf, _ | _, PosInf => True
  | Fin x, Fin y => (x <= y)%Qc
  | _, _ => False
  end.

(** q' is q with registers that enclose those of q in every group. *)
Definition wider (q q' : hgq) : Prop :=
  (exists mn mx, q' = with_minmax q mn mx) /\
  forall g, g < length (data (q_fbw q)) ->
    ext_le (nth g (data (q_min q')) PosInf) (nth g (data (q_min q)) PosInf) /\
    ext_le (nth g (data (q_max q)) NegInf) (nth g (data (q_max q')) NegInf).

(** The two objects are the same up to the BOPs found, with wider ranges in the second. *)
Definition wider_obj (o o' : hobj) : Prop :=
  o_record o' = o_record o /\ o_act o' = o_act o /\ o_ins o' = o_ins o /\
  l_op (o_layer o') = l_op (o_layer o) /\ l_relu (o_layer o') = l_relu (o_layer o) /\ l_loc (o_layer o') = l_loc (o_layer o) /\
  l_out (o_layer o') = l_out (o_layer o) /\ wider (l_paq (o_layer o)) (l_paq (o_layer o')).
Definition wider_store (st st' : store) : Prop :=
  length st' = length st /\ forall i o o', nth_error st i = Some o -> nth_error st' i = Some o' -> wider_obj o o'.

(** The quantized kernel of a layer is within the bounds in which its bits are counted exactly (C59). *)
Definition kernel_in_bounds (pw : Qc -> Qc) (ln2 : Qc) (o : hobj) : Prop :=
  match l_op (o_layer o) with
  | Linear _ kernel kq _ _ => exists w, forward pw ln2 kq kernel false false (fun _ => qz 0) = Ok (w, kq) /\
      forall v, In v (data w) -> (exists n, v = (qz n * pow2 (- 31))%Qc) /\ (qabs v < pow2 64)%Qc
  | Fn _ => True
  end.

(** The exact count of some layer of the model looks at object p, the layer it reads. *)
Definition reads (pred : nat -> option nat) (m : klayer layer) (p : nat) : Prop := exists i, In i (top_layers m) /\ pred i = Some p.
