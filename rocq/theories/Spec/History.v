(** Specification vocabulary for histories of quantizer operations. *)
From Coq Require Import ZArith Qcanon List.
From Verif Require Import Base.Num Base.Tensor Model.Quantizer Spec.Quant.
Import ListNotations.
Local Open Scope nat_scope.

(** skip_dims is the first m dimensions. *)
Definition prefix_skip (s : option (list Z)) (m : nat) : Prop :=
  s = Some (map Z.of_nat (seq 0 m)) \/ (m = 0 /\ s = None).

(** A per-group variable: shape 1 on the m skipped dimensions, [rest] on the others. *)
Definition reg_ok {A} (m : nat) (rest : list nat) (t : tensor A) : Prop :=
  shape t = repeat 1 m ++ rest /\ length (data t) = prodn rest.

(** Operations whose tensors have the shapes the quantizer was built for. *)
Definition ok_op (m : nat) (rest : list nat) (op : hop) : Prop :=
  match op with
  | HReset => True
  | HSetBits f => reg_ok m rest f
  | HCall x _ _ _ => exists pre, length pre = m /\ shape x = pre ++ rest /\ wf_tensor x
  end.

(** v is a value of group g in one of the logged outputs. *)
Definition logged (N g : nat) (log : list (tensor Qc)) (v : Qc) : Prop :=
  exists y, In y log /\ in_group N g (data y) v.

(** Operations of a calibration run: no training, no bitwidth update. *)
Definition inference_op (op : hop) : Prop :=
  match op with HReset => True | HSetBits _ => False | HCall _ training _ _ => training = false end.

(** Number of values of a shape; the unknown batch dimension counts as one. *)
Definition count (s : list (option nat)) : nat :=
  fold_right Nat.mul 1 (map (fun d => match d with Some v => v | None => 1 end) s).
