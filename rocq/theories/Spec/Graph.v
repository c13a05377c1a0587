(** Specification vocabulary for graph conversion. *)
From Coq Require Import List Arith String.
From Verif Require Import Base.Num Base.Tensor Model.Graph Model.Convert.
Import ListNotations.
Local Open Scope nat_scope.

(** A layer with one output tensor. *)
Definition one_output {L} (k : klayer L) : Prop :=
  match k with Leaf _ => True | Sub _ _ outs => length outs = 1 end.

(** Every model nested inside k has one output. *)
Inductive single {L} : klayer L -> Prop :=
| single_leaf x : single (Leaf x)
| single_sub nin nodes outs : Forall (fun n => one_output (fst n) /\ single (fst n)) nodes -> single (Sub nin nodes outs).

(** Node id of a model is needed to compute its outputs. *)
Inductive needed {L} (nin : nat) (nodes : list (klayer L * list (nat * nat))) (outs : list (nat * nat)) : nat -> Prop :=
| needed_out r : In r outs -> needed nin nodes outs (fst r)
| needed_in id k ins r : needed nin nodes outs id -> nin <= id -> nth_error nodes (id - nin) = Some (k, ins) -> In r ins ->
    needed nin nodes outs (fst r).

(** Evaluating a stateless model. *)
Definition pure {L V} (sem : L -> list V -> result V) (x : L) (vs : list V) (u : unit) : result (V * unit) :=
  rbind (sem x vs) (fun v => Ok (v, u)).
Definition eval {L V} (sem : L -> list V -> result V) (k : klayer L) (vs : list V) : result (list V) :=
  rbind (run (pure sem) k vs tt) (fun r => Ok (fst r)).

(** The transformer replaces a layer by something computing the same function;
    None stands for the identity. *)
Definition preserves {L V} (sem : L -> list V -> result V) (xf : option L -> result (xout (L := L))) : Prop :=
  xf None = Ok XNone /\
  forall x vs v, sem x vs = Ok v ->
    match xf (Some x) with
    | Ok XNone => vs = [v]
    | Ok (XLayer y) => sem y vs = Ok v
    | Ok (XModel m) => single m /\ one_output m /\ eval sem m vs = Ok [v]
    | Raise => True
    end.

(** Conversion of k needs nesting depth at most n and the transformer converges on every leaf met. *)
Fixpoint within {L} (uid : L -> nat) (xf : option L -> result (xout (L := L))) (n : nat) (k : klayer L) : Prop :=
  match n with
  | O => False
  | S n' =>
      match k with
      | Leaf x => exists lx, xf_chain uid xf x = Ok lx /\ match lx with XModel m => within uid xf n' m | _ => True end
      | Sub _ nodes _ => forall k' ins, In (k', ins) nodes -> within uid xf n' k'
      end
  end.

(** Nodes only consume earlier nodes, at every nesting level (Keras graphs are acyclic). *)
Inductive topo {L} : klayer L -> Prop :=
| topo_leaf x : topo (Leaf x)
| topo_sub nin nodes outs :
    (forall j k ins, nth_error nodes j = Some (k, ins) -> topo k /\ forall r, In r ins -> fst r < nin + j) ->
    topo (Sub nin nodes outs).

(** Position of a node that conversion has to apply: a path of node numbers
    through nested models, each needed for the outputs of its model. *)
Inductive reached {L} (uid : L -> nat) (xf : option L -> result (xout (L := L))) : klayer L -> list nat -> Prop :=
| reached_here nin nodes outs id : needed nin nodes outs id -> nin <= id -> reached uid xf (Sub nin nodes outs) [id]
| reached_inside nin nodes outs id k ins p : needed nin nodes outs id -> nin <= id ->
    nth_error nodes (id - nin) = Some (k, ins) -> reached uid xf k p -> reached uid xf (Sub nin nodes outs) (id :: p)
| reached_new x m p : xf_chain uid xf x = Ok (XModel m) -> reached uid xf m p -> reached uid xf (Leaf x) p.

(** What the transformer gives after n applications to x. *)
Fixpoint iterate {L} (xf : option L -> result (xout (L := L))) (n : nat) (x : L) : result (xout (L := L)) :=
  match n with
  | O => Ok (XLayer x)
  | S n' => rbind (iterate xf n' x) (fun o =>
            match o with
            | XLayer y => xf (Some y)
            | XNone => xf None
            | XModel m => Ok (XModel m)
            end)
  end.
(** The n-th application returned the very object it was given, or a model. *)
Definition settled {L} (uid : L -> nat) (xf : option L -> result (xout (L := L))) (n : nat) (x : L) : Prop :=
  match iterate xf n x, iterate xf (S n) x with
  | _, Ok (XModel _) => True
  | Ok (XLayer a), Ok (XLayer b) => uid a = uid b
  | Ok XNone, Ok XNone => True
  | _, _ => False
  end.

(** Names handed out for a sequence of requests. *)
Fixpoint hand_out (used : list string) (reqs : list string) : list string :=
  match reqs with
  | [] => []
  | r :: rs => let '(n, used') := next_name used r in n :: hand_out used' rs
  end.
