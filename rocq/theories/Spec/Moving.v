(** Training runs of a fused batch-norm layer. *)
From Coq Require Import ZArith Qcanon List Bool.
From Verif Require Import Base.Num Base.Tensor Model.Quantizer Model.Layers Model.BatchNorm Spec.Norm.
Import ListNotations.
Local Open Scope nat_scope.

(** Between two calls an optimizer may change kernel, bias, gamma, beta and the bitwidths, but no moving statistics. *)
Definition optimized (l l' : bnlayer) : Prop :=
  b_mean l' = b_mean l /\ b_var l' = b_var l /\ b_momentum l' = b_momentum l /\ b_center l' = b_center l /\
  b_scale l' = b_scale l /\ n_chan l' = n_chan l.

(** One training call: the layer at that time, the kernel its statistics are taken with, and the batch. *)
Definition step : Type := (bnlayer * tensor Qc * list (list sample))%type.

Inductive training_run (rsqrt pw : Qc -> Qc) (ln2 : Qc) : bnlayer -> list step -> bnlayer -> Prop :=
| Run_none l l' : optimized l l' -> training_run rsqrt pw ln2 l [] l'
| Run_call l l1 w xs record nk nb na ys l2 steps l3 : optimized l l1 ->
    (if b_scale l1 then w = b_kernel l1 else exists kq, call pw ln2 (b_kq l1) (b_kernel l1) true false nk = Ok (w, kq)) ->
    bn_train rsqrt pw ln2 l1 xs record nk nb na = Ok (ys, l2) ->
    training_run rsqrt pw ln2 l2 steps l3 -> training_run rsqrt pw ln2 l ((l1, w, xs) :: steps) l3.

(** The values of W x of channel c in a step, and the statistics of the step. *)
Definition step_values (s : step) (c : nat) : list Qc :=
  let '(l, w, xs) := s in channel_values (b_loc l) (b_out l) (map (fun x => linop (b_ts l) (data w) (hd [] x)) xs) c.
Definition step_mean (c : nat) (s : step) (m : Qc) : Prop :=
  step_values s c <> [] /\ exists m0, is_mean (step_values s c) m0 /\
  m = (m0 + match b_bias (fst (fst s)) with Some b => nth c (data b) (qz 0) | None => qz 0 end)%Qc.
Definition step_var (c : nat) (s : step) (v : Qc) : Prop := step_values s c <> [] /\ is_var (step_values s c) v.

(** Exponentially weighted: the statistic of the last call has weight 1 - mom, each earlier one mom times less. *)
Definition weighted (mom old : Qc) (ms : list Qc) : Qc :=
  (Qcpower mom (length ms) * old +
   (qz 1 - mom) * fold_right Qcplus (qz 0) (map (fun k => Qcpower mom (length ms - 1 - k) * nth k ms (qz 0))%Qc (seq 0 (length ms))))%Qc.
