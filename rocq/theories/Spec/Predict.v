(** Specification vocabulary for the predictions made while tracing. *)
From Coq Require Import ZArith Qcanon List.
From Verif Require Import Base.Num Base.Tensor Model.Layers Model.Graph Model.Trace.
Import ListNotations.

(** The number of output tensors of a model. *)
Definition n_outputs (m : klayer layer) : nat := match m with Leaf _ => 1 | Sub _ _ outs => length outs end.

(** Rows js of every input of a dataset. *)
Definition rows (js : list nat) (ds : list (list (list Qc))) : list (list (list Qc)) := map (fun d => map (fun j => nth j d []) js) ds.
