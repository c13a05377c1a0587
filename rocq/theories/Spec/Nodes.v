(** The graph of a model among the nodes of the session. *)
From Coq Require Import List Arith.
From Verif Require Import Model.Graph Model.Nodes.
Import ListNotations.

(** Object i is the layer or the model k: number the nodes of the model topologically by phi, inputs first; each further
    node is a call of one of the model's layers (kept by Keras among the nodes of that layer), on the outputs of earlier
    nodes.  Nothing is said about any other node of the session. *)
Inductive shows {L} (w : session L) : nat -> klayer L -> Prop :=
| shows_layer i x : w_obj w i = Some (OLayer x) -> shows w i (Leaf x)
| shows_model i layers nin nodes outs phi :
    w_obj w i = Some (OModel (map phi (seq 0 nin)) (map (fun r => phi (fst r)) outs) layers) ->
    (forall a b, a < nin + length nodes -> b < nin + length nodes -> phi a = phi b -> a = b) ->
    (forall j, j < nin -> exists n, w_node w (phi j) = Some n /\ n_input n = true) ->
    (forall j k ins, nth_error nodes j = Some (k, ins) -> exists l,
       w_node w (phi (nin + j)) = Some (mkN l false (map (fun r => phi (fst r)) ins)) /\
       shows w l k /\ In l layers /\ In (phi (nin + j)) (w_in w l) /\ Forall (fun r => fst r < nin + j) ins) ->
    Forall (fun r => fst r < nin + length nodes) outs ->
    shows w i (Sub nin nodes outs).

(** The largest number of nodes of a model in k. *)
Fixpoint widest {L} (k : klayer L) : nat :=
  match k with
  | Leaf _ => 0
  | Sub nin nodes _ => Nat.max (S (nin + length nodes)) (fold_right (fun n a => Nat.max (widest (fst n)) a) 0 nodes)
  end.
