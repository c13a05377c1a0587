(** The nodes Keras keeps for every call of a layer, and how src/HGQ/proxy/convert.py finds those of a model:
    get_all_nodes, solve_dependencies, _get_out_tensor and apply_layer on models.  A layer may have been called in
    several models; its nodes know nothing about models.  Model/Convert.v has the same functions on the graph of one
    model. *)
From Coq Require Import List Arith Bool String.
From Verif Require Import Base.Num Base.Tensor Model.Graph Model.Convert.
Import ListNotations.

(** A node: the layer called, whether it is an input, the nodes it depends on. (node.layer, node.is_input,
    node.parent_nodes; convert.py:25-29, 48-51) *)
Record node : Type := mkN { n_layer : nat; n_input : bool; n_parents : list nat }.

(** An object of the session: a layer or a model; of a model the nodes of its input and output tensors and its layers.
    (model.inputs, model.outputs, model.layers: convert.py:23-24, 36-40) *)
Inductive kobj (L : Type) : Type :=
| OLayer (x : L)
| OModel (inputs outputs layers : list nat).
Arguments OLayer {L}.
Arguments OModel {L}.

(** Everything built so far: objects, nodes, and of every layer the nodes it was called at and the nodes that use its
    outputs. (_inbound_nodes, _outbound_nodes: convert.py:25, 28) *)
Record session (L : Type) : Type := mkSession {
  w_obj : nat -> option (kobj L); w_node : nat -> option node; w_in : nat -> list nat; w_out : nat -> list nat }.
Arguments w_obj {L}.
Arguments w_node {L}.
Arguments w_in {L}.
Arguments w_out {L}.

Section Nodes.
  Context {L : Type}.
  Variable uid : L -> nat.
  Variable xf : option L -> result (xout (L := L)).
  Variable w : session L.
  (** The order in which Python goes through a set. (convert.py:47) *)
  Variable order : list nat -> list nat.

  (** x in a set (convert.py:26, 29) *)
  Definition elem (a : nat) (l : list nat) : bool := existsb (Nat.eqb a) l.
  (** nodes.add(node) if node.layer in layers, convert.py:26-27, 29-30 *)
  Definition add_node (layers : list nat) (id : nat) (s : list nat) : list nat :=
    match w_node w id with
    | Some n => if elem (n_layer n) layers then (if elem id s then s else s ++ [id]) else s
    | None => s
    end.
  (** get_all_nodes, convert.py:20-31 *)
  Definition get_all_nodes (layers : list nat) : list nat :=
    fold_left (fun s l => fold_left (fun s id => add_node layers id s) (w_out w l)
                            (fold_left (fun s id => add_node layers id s) (w_in w l) s)) layers [].

  (** The loop of solve_dependencies, convert.py:47-53 *)
  Definition dependencies (nodes : list nat) : list (nat * (nat * list nat)) :=
    fold_left (fun d id => match w_node w id with
                           | Some n => if n_input n then d else d ++ [(id, (n_layer n, n_parents n))]
                           | None => d
                           end) nodes [].
  (** dependencies_dict[node], convert.py:120 *)
  Definition look (d : list (nat * (nat * list nat))) (id : nat) : option (nat * list nat) :=
    match find (fun p => Nat.eqb (fst p) id) d with Some p => Some (snd p) | None => None end.

  (** apply_layer on an object, convert.py:136-194, with _get_out_tensor, convert.py:107-132 ([get]).  [depth] bounds
      the recursion on nodes and [fuel] the nesting of models (Python's recursion limit).  A model returned by the
      transformer is new, its layers are called nowhere else: Model/Convert.v. *)
  Fixpoint nconv (depth fuel : nat) (obj : nat) (inp : tv) (s : cst (L := L)) : result (tv * cst (L := L)) :=
    match fuel with
    | O => Raise
    | S fu =>
        match w_obj w obj with
        | None => Raise
        | Some (OLayer x) =>
            rbind (xf_chain uid xf x) (fun lx =>
            match lx with
            | XModel m => conv uid xf fu [] m inp s
            | XNone => Ok (inp, s)
            | XLayer y => emit uid y inp s
            end)
        | Some (OModel inputs outputs layers) =>
            let inps := match inp with T i => [T i] | Ts l => l end in
            let d := dependencies (order (get_all_nodes layers)) in
            let fix get (dp : nat) (id : nat) (ss : list (nat * tv) * cst (L := L)) : result (tv * (list (nat * tv) * cst (L := L))) :=
              match dp with
              | O => Raise
              | S dp' =>
                  match lookup (fst ss) id with
                  | Some t => Ok (t, ss)
                  | None =>
                      match look d id with
                      | None => Raise
                      | Some (layer, requires) =>
                          rbind (mapS (get dp') requires ss) (fun r =>
                          rbind (nconv depth fu layer (unwrap (fst r)) (snd (snd r))) (fun ts =>
                          Ok (fst ts, ((id, fst ts) :: fst (snd r), snd ts))))
                      end
                  end
              end in
            rbind (mapS (get depth) outputs (combine inputs inps, s)) (fun r => Ok (unwrap (fst r), snd (snd r)))
        end
    end.

  (** convert_model, convert.py:197-216 *)
  Definition nconvert_model (depth fuel : nat) (obj : nat) (names : nat -> string * bool) : result (klayer L * list string) :=
    match w_obj w obj with
    | Some (OModel inputs _ _) =>
        let nin := List.length inputs in
        rbind (nconv depth fuel obj (unwrap (map T (seq 0 nin))) (mkC nin [] [] names [])) (fun r =>
        rbind (flat_tv (fst r)) (fun outs =>
        Ok (Sub nin (map (fun o => (Leaf (fst (fst o)), map (fun i => (i, 0%nat)) (snd o))) (c_out (snd r)))
                (map (fun i => (i, 0%nat)) outs), map (fun o => snd (fst o)) (c_out (snd r)))))
    | _ => Raise
    end.
End Nodes.
