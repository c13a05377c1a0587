(** Keras functional models as graphs of layers, possibly nested, and how Keras
    evaluates them (keras Functional.call: every node once, in topological
    order).  This is the substrate on which src/HGQ/proxy/convert.py and
    src/HGQ/bops/bops.py work. *)
From Coq Require Import List Arith.
From Verif Require Import Base.Num Base.Tensor.
Import ListNotations.

(** A layer is a leaf or a nested model.  A model has [nin] inputs (nodes 0 to
    nin-1) and further nodes numbered in topological order, each a layer with
    its input tensors (node, output index of that node); [outs] are the
    model's output tensors.  Numbering topologically loses nothing: the graphs
    are acyclic and node numbers are only names. (the models of convert.py:34-54) *)
Inductive klayer (L : Type) : Type :=
| Leaf (x : L)
| Sub (nin : nat) (nodes : list (klayer L * list (nat * nat))) (outs : list (nat * nat)).
Arguments Leaf {L}.
Arguments Sub {L}.

Section Run.
  Context {L V St : Type}.
  (** Calling a leaf layer: one output tensor. (convert.py:107-132, 181-194 walk the same graph) *)
  Variable sem : L -> list V -> St -> result (V * St).

  Definition pick (vals : list (list V)) (r : nat * nat) : result V :=
    match nth_error vals (fst r) with
    | Some vs => match nth_error vs (snd r) with Some v => Ok v | None => Raise end
    | None => Raise
    end.

  Fixpoint run (k : klayer L) (inps : list V) (st : St) : result (list V * St) :=
    match k with
    | Leaf x => rbind (sem x inps st) (fun r => Ok ([fst r], snd r))
    | Sub nin nodes outs =>
        if Nat.eqb (length inps) nin then
          let fix go (ns : list (klayer L * list (nat * nat))) (vals : list (list V)) (st : St)
            : result (list (list V) * St) :=
            match ns with
            | [] => Ok (vals, st)
            | (k', ins) :: ns' =>
                rbind (rseq (map (pick vals) ins)) (fun xs =>
                rbind (run k' xs st) (fun r => go ns' (vals ++ [fst r]) (snd r)))
            end in
          rbind (go nodes (map (fun v => [v]) inps) st) (fun r =>
          rbind (rseq (map (pick (fst r)) outs)) (fun ys => Ok (ys, snd r)))
        else Raise
    end.

  Fixpoint run_nodes (ns : list (klayer L * list (nat * nat))) (vals : list (list V)) (st : St)
    : result (list (list V) * St) :=
    match ns with
    | [] => Ok (vals, st)
    | (k', ins) :: ns' =>
        rbind (rseq (map (pick vals) ins)) (fun xs =>
        rbind (run k' xs st) (fun r => run_nodes ns' (vals ++ [fst r]) (snd r)))
    end.
End Run.
