(** C91: converting a model does not depend on the other models that share its layers. *)
From Coq Require Import List Arith String Lia Permutation.
From Verif Require Import Base.Num Base.Tensor Model.Graph Model.Convert Model.Nodes Spec.Graph Spec.Nodes Proofs.NodesP.
From Verif Require Props.P_Convert.
Import ListNotations.
Local Open Scope nat_scope.

(** The nodes found are those of the model's layers, each once, whatever else uses these layers. *)
Theorem C91_nodes : forall (L : Type) (w : session L) layers, NoDup (get_all_nodes w layers) /\
  forall id, In id (get_all_nodes w layers) <->
    exists l n, In l layers /\ (In id (w_in w l) \/ In id (w_out w l)) /\ w_node w id = Some n /\ In (n_layer n) layers.
Proof.
  intros L w layers. split; [apply all_nodes_NoDup|]. intros id. rewrite all_nodes_In.
  split; [intros [l [A [B [n [C D]]]]]; exists l, n|intros [l [n [A [B [C D]]]]]; exists l]; eauto 6.
Qed.
Print Assumptions C91_nodes.

(** The conversion is that of the model's graph. *)
Theorem C91_graph : forall (L : Type) uid xf (w : session L) order depth fuel i k names,
  (forall l, Permutation (order l) l) -> shows w i k -> widest k <= depth ->
  nconvert_model uid xf w order depth fuel i names =
  match convert_model uid xf fuel k names with Ok (m', ns, _) => Ok (m', ns) | Raise => Raise end.
Proof.
  intros L uid xf w order depth fuel i k names Ho Hs Hd. rewrite (nconvert_convert uid xf w order Ho depth fuel i k names Hs Hd).
  destruct (convert_model _ _ _ _ _) as [[[m' ns] s]|]; reflexivity.
Qed.
Print Assumptions C91_graph.

(** So other models built on the same layers, before or after, and the order of the set do not matter. *)
Theorem C91_independent : forall (L : Type) uid xf (w w' : session L) order order' depth fuel i i' k names,
  (forall l, Permutation (order l) l) -> (forall l, Permutation (order' l) l) ->
  shows w i k -> shows w' i' k -> widest k <= depth ->
  nconvert_model uid xf w order depth fuel i names = nconvert_model uid xf w' order' depth fuel i' names.
Proof.
  intros L uid xf w w' order order' depth fuel i i' k names H1 H2 S1 S2 D. rewrite !(C91_graph _ _ _ _ _ _ _ _ k); auto.
Qed.
Print Assumptions C91_independent.

(** And the converted model computes what the graph of the model computes. *)
Theorem C91_preserves : forall (L V : Type) uid xf (sem : L -> list V -> result V) (w : session L) order depth fuel i k names m' ns,
  (forall l, Permutation (order l) l) -> shows w i k -> widest k <= depth -> preserves sem xf -> single k ->
  nconvert_model uid xf w order depth fuel i names = Ok (m', ns) ->
  forall inputs ys, eval sem k inputs = Ok ys -> eval sem m' inputs = Ok ys.
Proof.
  intros L V uid xf sem w order depth fuel i k names m' ns Ho Hs Hd PR Hk E. rewrite (C91_graph _ _ _ _ _ _ _ _ k names Ho Hs Hd) in E.
  destruct (convert_model uid xf fuel k names) as [[[a b] c]|] eqn:C; [|discriminate]. injection E as -> ->.
  exact (P_Convert.C33_conversion_preserves _ _ _ _ _ _ _ _ _ _ _ PR Hk C).
Qed.
Print Assumptions C91_preserves.

(** Three models.  A (object 10): input 0, layers 1 and 2.  B (object 11): input 3, the shared layer 1, layer 4 on the
    output of layer 1 and the input.  C (object 12): input 5, the model A, then layer 1 again. *)
Definition w_obj3 (i : nat) : option (kobj nat) :=
  match i with
  | 10 => Some (OModel [100] [102] [0; 1; 2]) | 11 => Some (OModel [200] [202] [3; 1; 4])
  | 12 => Some (OModel [300] [302] [5; 10; 1])
  | 0 | 1 | 2 | 3 | 4 | 5 => Some (OLayer i) | _ => None end.
Definition w_node3 (i : nat) : option node :=
  match i with
  | 100 => Some (mkN 0 true []) | 101 => Some (mkN 1 false [100]) | 102 => Some (mkN 2 false [101])
  | 200 => Some (mkN 3 true []) | 201 => Some (mkN 1 false [200]) | 202 => Some (mkN 4 false [201; 200])
  | 300 => Some (mkN 5 true []) | 301 => Some (mkN 10 false [300]) | 302 => Some (mkN 1 false [301]) | _ => None end.
Definition w3 : session nat := mkSession nat w_obj3 w_node3
  (fun l => match l with 0 => [100] | 1 => [101; 201; 302] | 2 => [102] | 3 => [200] | 4 => [202] | 5 => [300] | 10 => [301] | _ => [] end)
  (fun l => match l with 0 => [101] | 1 => [102; 202] | 3 => [201; 202] | 5 => [301] | 10 => [302] | _ => [] end).
(** B alone, its nodes numbered differently. *)
Definition w1 : session nat := mkSession nat
  (fun i => match i with 0 => Some (OModel [7] [9] [3; 1; 4]) | 1 | 3 | 4 => Some (OLayer i) | _ => None end)
  (fun i => match i with 7 => Some (mkN 3 true []) | 8 => Some (mkN 1 false [7]) | 9 => Some (mkN 4 false [8; 7]) | _ => None end)
  (fun l => match l with 1 => [8] | 3 => [7] | 4 => [9] | _ => [] end) (fun l => match l with 1 => [9] | 3 => [8; 9] | _ => [] end).
Definition graph_A : klayer nat := Sub 1 [(Leaf 1, [(0, 0)]); (Leaf 2, [(1, 0)])] [(2, 0)].
Definition graph_B : klayer nat := Sub 1 [(Leaf 1, [(0, 0)]); (Leaf 4, [(1, 0); (0, 0)])] [(2, 0)].
Definition graph_C : klayer nat := Sub 1 [(graph_A, [(0, 0)]); (Leaf 1, [(1, 0)])] [(2, 0)].
Ltac show f := refine (shows_model _ _ _ _ _ _ f _ _ _ _ _);
  [reflexivity|cbn [length Nat.add]; intros; lia
  |intros j Hj; eexists; split; [assert (j = 0) as -> by lia; reflexivity|reflexivity]
  |intros [|[|j]] k ins E; cbn in E; [injection E as <- <-|injection E as <- <-|destruct j; discriminate]; eexists; (split; [reflexivity|]);
   (split; [try (apply shows_layer; reflexivity)|split; [cbn; tauto|]; split; [cbn; tauto|]; repeat (constructor; cbn; try lia)])
  |repeat constructor].
Example C91_ex : shows w3 11 graph_B /\ shows w1 0 graph_B /\ shows w3 12 graph_C /\
  get_all_nodes w3 [3; 1; 4] = [200; 201; 202; 101; 302] /\
  (let xf := fun x : option nat => Ok (match x with Some y => XLayer y | None => XNone end) in
   let name := fun u : nat => (match u with 1 => "plus" | 2 => "lin" | _ => "dot" end%string, false) in
   nconvert_model (fun x => x) xf w3 (@rev nat) 5 3 11 name = nconvert_model (fun x => x) xf w1 (fun l => l) 5 3 0 name /\
   nconvert_model (fun x => x) xf w3 (@rev nat) 5 3 11 name = Ok (graph_B, ["plus"; "dot"]%string) /\
   nconvert_model (fun x => x) xf w3 (@rev nat) 5 3 12 name =
     Ok (Sub 1 [(Leaf 1, [(0, 0)]); (Leaf 2, [(1, 0)]); (Leaf 1, [(2, 0)])] [(3, 0)], ["plus"; "lin"; "plus_0"]%string)).
Proof.
  assert (A : shows w3 10 graph_A) by (unfold graph_A; show (fun i => 100 + i)).
  split; [unfold graph_B; show (fun i => 200 + i)|]. split; [unfold graph_B; show (fun i => 7 + i)|].
  split; [unfold graph_C; show (fun i => 300 + i); exact A|]. split; [reflexivity|]. repeat split; vm_compute; reflexivity.
Qed.
Definition sem3 (l : nat) (vs : list nat) : result nat :=
  match l, vs with 1, [x] => Ok (x + 1) | 2, [x] => Ok (3 * x) | 4, [x; y] => Ok (x * y) | _, _ => Raise end.
Example C91_preserves_ex : preserves sem3 (fun x => Ok (match x with Some y => XLayer y | None => XNone end)) /\ single graph_C /\
  eval sem3 graph_C [5] = Ok [19] /\ eval sem3 graph_B [5] = Ok [30].
Proof.
  split; [split; [reflexivity|intros x vs v H; exact H]|]. split; [repeat (constructor; cbn)|]. split; reflexivity.
Qed.
