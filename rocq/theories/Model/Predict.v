(** Model of what trace_minmax returns besides the BOPs
    (src/HGQ/bops/bops.py). *)
From Coq Require Import ZArith Qcanon List Bool.
From Verif Require Import Base.Num Base.Tensor Model.Layers Model.Graph Model.Trace.
Import ListNotations.
Local Open Scope nat_scope.

(** The array np.concatenate(r, axis=0) makes, bops.py:124-125.  A model with
    one output returns a tensor: the first axis of the result counts samples.
    A model with several outputs returns a list of tensors, which numpy first
    stacks: the first axis of the result counts output tensors. *)
Inductive ndarray : Type :=
| Rows (l : list (list Qc))
| Stack (l : list (list (list Qc))).

(** np.concatenate(r, axis=0), bops.py:125.  [oshapes]: the shapes of the
    outputs of the model without the batch axis, [rs]: the values of r.  An
    empty r raises; so do tensors of different shapes, which cannot be stacked
    (inside one list) or concatenated (two lists). *)
Definition predictions (oshapes : list (list nat)) (rs : list (list batch)) : result ndarray :=
  match rs with
  | [] => Raise
  | r0 :: _ =>
      match oshapes with
      | [] => Raise
      | [_] => Ok (Rows (concat (map (fun r => nth 0 r []) rs)))
      | sh :: shs =>
          if (forallb (fun s => if list_eq_dec Nat.eq_dec s sh then true else false) shs &&
              forallb (fun b => Nat.eqb (List.length b) (List.length (nth 0 r0 []))) (concat rs))%bool
          then Ok (Stack (concat rs)) else Raise
      end
  end.
