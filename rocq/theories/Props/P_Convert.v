(** Theorems about graph conversion: C33, C34, C35, C36. *)
From Coq Require Import List Arith String Bool Lia ZArith.
From Verif Require Import Base.Num Base.Tensor Model.Graph Model.Convert Spec.Graph Spec.Names Proofs.ConvertP Proofs.NamesP.
Import ListNotations.
Local Open Scope nat_scope.

(** ** C33: conversion preserves the function *)

Theorem C33_conversion_preserves : forall (L V : Type) (uid : L -> nat) (xf : option L -> result xout) (sem : L -> list V -> result V)
    (fuel : nat) (m : klayer L) (names : nat -> string * bool) m' ns s,
  preserves sem xf -> single m -> convert_model uid xf fuel m names = Ok (m', ns, s) ->
  forall inputs ys, eval sem m inputs = Ok ys -> eval sem m' inputs = Ok ys.
Proof.
  intros L V uid xf sem fuel m names m' ns s PR Hs E inputs ys H.
  pose proof (convert_ok uid xf sem fuel m names inputs ys PR Hs H) as C. rewrite E in C. exact C.
Qed.
Print Assumptions C33_conversion_preserves.

Theorem C33_conversion_succeeds : forall (L V : Type) (uid : L -> nat) (xf : option L -> result xout) (sem : L -> list V -> result V)
    (fuel : nat) nin nodes outs (names : nat -> string * bool) inputs ys,
  preserves sem xf -> single (Sub nin nodes outs) -> eval sem (Sub nin nodes outs) inputs = Ok ys ->
  within uid xf fuel (Sub nin nodes outs) ->
  exists m' ns s, convert_model uid xf fuel (Sub nin nodes outs) names = Ok (m', ns, s).
Proof.
  intros L V uid xf sem fuel nin nodes outs names inputs ys PR Hs H Wn.
  pose proof (convert_ok uid xf sem fuel _ names inputs ys PR Hs H) as C.
  destruct (convert_model _ _ _ _ _) as [[[m' ns] s]|]; [eauto|]. destruct (C Wn) as [x E]. discriminate.
Qed.
Print Assumptions C33_conversion_succeeds.

(** A small layer language: a layer object is its identity and an operation. *)
Inductive op := OLin (c : Z) | OPlus (c : Z) | OAff (a b : Z) | ODot | OId | OSum.
Definition lay : Type := nat * op.
Definition lsem (l : lay) (vs : list Z) : result Z :=
  match snd l, vs with
  | OLin c, [v] => Ok (c * v)%Z
  | OPlus c, [v] => Ok (c + v)%Z
  | OAff a b, [v] => Ok (a * v + b)%Z
  | ODot, [v; w] => Ok (v - 10 * w)%Z
  | OId, [v] => Ok v
  | OSum, _ => Ok (fold_right Z.add 0%Z vs)
  | _, _ => Raise
  end.
(** Affine layers become two layers, identity layers are removed. *)
Definition lxf (o : option lay) : result (xout (L := lay)) :=
  Ok match o with
  | None => XNone
  | Some (u, OAff a b) => XModel (Sub 1 [(Leaf (100 + u, OLin a), [(0, 0)]); (Leaf (200 + u, OPlus b), [(1, 0)])] [(2, 0)])
  | Some (u, OId) => XNone
  | Some l => XLayer l
     end.

Example ex_preserves : preserves lsem lxf.
Proof.
  split; [reflexivity|]. intros [u o] vs v H. destruct o; cbn in *; try exact H.
  - destruct vs as [|x [|? ?]]; try discriminate. injection H as <-. repeat split.
    + repeat constructor.
    + unfold eval. cbn. rewrite Z.add_comm. reflexivity.
  - destruct vs as [|x [|? ?]]; try discriminate. injection H as <-. reflexivity.
Qed.

(** Two inputs, a layer used twice (node 2 and 4), a nested model used twice, a removed layer, a dead node. *)
Definition ex_inner : klayer lay := Sub 2 [(Leaf (7, ODot), [(1, 0); (0, 0)]); (Leaf (8, OAff 5 6), [(2, 0)])] [(3, 0)].
Definition ex_model : klayer lay :=
  Sub 2 [(Leaf (1, OAff 2 3), [(0, 0)]); (Leaf (2, OId), [(1, 0)]); (Leaf (1, OAff 2 3), [(3, 0)]);
         (ex_inner, [(2, 0); (4, 0)]); (ex_inner, [(5, 0); (0, 0)]); (Leaf (9, OPlus 1), [(5, 0)])]
    [(6, 0); (5, 0); (6, 0)].
Definition ex_names (u : nat) : string * bool := (match u with 101 => "d_lin" | 201 => "d_plus" | 7 => "dot" | _ => "x" end%string, Nat.ltb 100 u).

Example ex_single : single ex_model.
Proof. repeat (constructor; cbn). Qed.
Lemma lxf_chain (l : lay) : xf_chain (fun l => fst l) lxf l = lxf (Some l).
Proof.
  rewrite xf_chain_eq. change 1024 with (S 1023). generalize 1023. intros rem. destruct l as [u o].
  destruct o; cbn -[Nat.eqb]; rewrite ?Nat.eqb_refl; try reflexivity. destruct rem; reflexivity.
Qed.
Example ex_within : within (fun l => fst l) lxf 5 ex_model.
Proof.
  cbn [within ex_model ex_inner]. intros k ins H.
  repeat (destruct H as [H|H]; [injection H as <- <-|]); try contradiction.
  all: try (eexists; split; [apply lxf_chain|]; cbn [lxf]; try exact I).
  all: cbn [within]; intros k ins H; repeat (destruct H as [H|H]; [injection H as <- <-|]); try contradiction.
  all: try (eexists; split; [apply lxf_chain|]; cbn [lxf]; try exact I).
  all: cbn [within]; intros k ins H; repeat (destruct H as [H|H]; [injection H as <- <-|]); try contradiction.
  all: try (eexists; split; [apply lxf_chain|]; cbn [lxf]; try exact I).
Qed.
Example ex_convert : exists m' ns s, convert_model (fun l => fst l) lxf 5 ex_model ex_names = Ok (m', ns, s) /\
  ns = ["d_lin"; "d_plus"; "d_lin_0"; "d_plus_0"; "dot"; "x"; "x_0"; "dot_0"; "x_1"; "x_2"]%string /\
  c_log s = [[2; 1]; [2; 2]; [2]; [3]; [4; 1]; [4; 2]; [4]; [5; 2]; [5; 3; 1]; [5; 3; 2]; [5; 3]; [5];
             [6; 2]; [6; 3; 1]; [6; 3; 2]; [6; 3]; [6]] /\
  eval lsem ex_model [4; 7]%Z = Ok [22976; -459; 22976]%Z /\ eval lsem m' [4; 7]%Z = Ok [22976; -459; 22976]%Z.
Proof.
  destruct (convert_model _ _ _ _ _) as [[[m' ns] s]|] eqn:E; vm_compute in E; [|discriminate].
  injection E as <- <- <-. eexists _, _, _. split; [reflexivity|]. vm_compute. auto.
Qed.

(** A nested model with two outputs: the consumer asks for the second output
    only, the converted model gives it both.  Conversion silently changes the
    function: the output index of a tensor is ignored. *)
Definition two_out : klayer lay := Sub 1 [(Leaf (1, OPlus 1), [(0, 0)]); (Leaf (2, OPlus 2), [(0, 0)])] [(1, 0); (2, 0)].
Definition uses_second : klayer lay := Sub 1 [(two_out, [(0, 0)]); (Leaf (3, OSum), [(1, 1)])] [(2, 0)].
Theorem C33_several_outputs_refuted :
  ~ forall (L V : Type) (uid : L -> nat) (xf : option L -> result xout) (sem : L -> list V -> result V) fuel m names m' ns s,
      preserves sem xf -> convert_model uid xf fuel m names = Ok (m', ns, s) ->
      forall inputs ys, eval sem m inputs = Ok ys -> eval sem m' inputs = Ok ys.
Proof.
  intros C. specialize (C lay Z (fun l => fst l) lxf lsem 5 uses_second ex_names).
  destruct (convert_model _ _ _ _ _) as [[[m' ns] s]|] eqn:E; vm_compute in E; [|discriminate].
  injection E as <- <- <-. specialize (C _ _ _ ex_preserves eq_refl [10]%Z [12]%Z eq_refl). vm_compute in C. discriminate.
Qed.
Print Assumptions C33_several_outputs_refuted.

(** With both outputs used in order the conversion even fails. *)
Example ex_two_consumed : eval lsem (Sub 1 [(two_out, [(0, 0)]); (Leaf (3, ODot), [(1, 0); (1, 1)])] [(2, 0)]) [10]%Z = Ok [-109]%Z /\
  convert_model (fun l : lay => fst l) lxf 9 (Sub 1 [(two_out, [(0, 0)]); (Leaf (3, ODot), [(1, 0); (1, 1)])] [(2, 0)]) ex_names = Raise.
Proof. split; vm_compute; reflexivity. Qed.

(** ** C34: every needed node exactly once *)

Theorem C34_each_needed_node_once : forall (L : Type) (uid : L -> nat) (xf : option L -> result xout) fuel (m : klayer L) names m' ns s,
  topo m -> (forall x k, xf_chain uid xf x = Ok (XModel k) -> topo k) ->
  convert_model uid xf fuel m names = Ok (m', ns, s) ->
  NoDup (c_log s) /\ forall p, In p (c_log s) <-> reached uid xf m p.
Proof.
  intros L uid xf fuel m names m' ns s Ht XT E. unfold convert_model in E. destruct m as [|nin nodes outs]; [discriminate|].
  destruct (conv _ _ _ _ _ _ _) as [[t s1]|] eqn:Ec; cbn [rbind fst snd] in E; [|discriminate].
  destruct (flat_tv t); cbn [rbind] in E; [|discriminate]. injection E as <- <- <-.
  destruct (conv_log uid xf XT _ _ _ _ _ _ _ Ht Ec) as [new [A [B C]]]. cbn in A. rewrite A. split; [assumption|].
  intros p. rewrite C. split; [intros [p' [-> H]]; exact H|]. intros H. exists p. auto.
Qed.
Print Assumptions C34_each_needed_node_once.

(** Restricted to the top level: node id is applied iff some output depends on it. *)
Theorem C34_top_level : forall (L : Type) (uid : L -> nat) (xf : option L -> result xout) fuel nin nodes outs names m' ns s id,
  topo (Sub nin nodes outs) -> (forall x k, xf_chain uid xf x = Ok (XModel k) -> topo k) ->
  convert_model uid xf fuel (Sub nin nodes outs) names = Ok (m', ns, s) ->
  count_occ (list_eq_dec Nat.eq_dec) (c_log s) [id] = 1 <-> needed (L := L) nin nodes outs id /\ nin <= id.
Proof.
  intros L uid xf fuel nin nodes outs names m' ns s id Ht XT E.
  destruct (C34_each_needed_node_once _ _ _ _ _ _ _ _ _ Ht XT E) as [A B]. split.
  - intros C. assert (I : In [id] (c_log s)) by (apply (count_occ_In (list_eq_dec Nat.eq_dec)); lia).
    apply B in I. inversion I; subst; [auto|]. auto.
  - intros [H1 H2]. apply NoDup_count_occ'; [assumption|]. apply B. apply reached_here; assumption.
Qed.
Print Assumptions C34_top_level.

Example ex_topo : topo ex_model /\ (forall x k, xf_chain (fun l : lay => fst l) lxf x = Ok (XModel k) -> topo k).
Proof.
  assert (TI : topo ex_inner).
  { constructor. intros [|[|[|j]]] k ins H; try discriminate; injection H as <- <-; (split; [constructor|]);
      intros r Hr; repeat (destruct Hr as [<-|Hr]; [cbn; lia|]); destruct Hr. }
  split.
  - constructor. intros j k ins H. do 6 (destruct j as [|j]; [injection H as <- <-; (split; [first [exact TI|constructor]|]);
      intros r Hr; repeat (destruct Hr as [<-|Hr]; [cbn; lia|]); destruct Hr|]). destruct j; discriminate.
  - intros [u o] k H. rewrite lxf_chain in H. destruct o; cbn [lxf] in H; try discriminate.
    injection H as <-. constructor. intros [|[|[|j]]] k ins H; try discriminate; injection H as <- <-; (split; [constructor|]);
      intros r Hr; repeat (destruct Hr as [<-|Hr]; [cbn; lia|]); destruct Hr.
Qed.

(** ** C35: names *)

Theorem C35_next_name : forall used name, exists n, next_name used name = (n, n :: used) /\ ~ In n used /\
  (~ In name used -> n = name) /\
  (In name used -> exists i, n = suffixed name i /\ forall j, j < i -> In (suffixed name j) used).
Proof. exact next_name_spec. Qed.
Print Assumptions C35_next_name.

Theorem C35_sequences_distinct : forall reqs, NoDup (hand_out [] reqs) /\ length (hand_out [] reqs) = length reqs.
Proof.
  intros reqs. split; [apply hand_out_spec|]. generalize (@nil string). induction reqs as [|r reqs IH]; intros used; [reflexivity|].
  cbn [hand_out]. destruct (next_name used r) as [n u]. cbn. f_equal. apply IH.
Qed.
Print Assumptions C35_sequences_distinct.

Theorem C35_converted_names_distinct : forall (L : Type) (uid : L -> nat) (xf : option L -> result xout) fuel (m : klayer L) names m' ns s,
  convert_model uid xf fuel m names = Ok (m', ns, s) ->
  NoDup ns /\ match m' with Sub _ nodes _ => length ns = length nodes | Leaf _ => False end.
Proof.
  intros L uid xf fuel m names m' ns s E. destruct (convert_names _ _ _ _ _ _ _ _ E) as [H1 H2]. split; [assumption|].
  unfold convert_model in E. destruct m as [|nin nodes outs]; [discriminate|].
  destruct (conv _ _ _ _ _ _ _) as [[t s1]|]; cbn [rbind fst snd] in E; [|discriminate].
  destruct (flat_tv t); cbn [rbind] in E; [|discriminate]. injection E as <- <- <-. rewrite !map_length. reflexivity.
Qed.
Print Assumptions C35_converted_names_distinct.

(** C35: which names: a layer keeps its name unless an earlier layer of the new model has it; then the first free number is appended.  A
    layer object that is applied several times asks with the name it was given last, unless the transformer makes it anew each time. *)
Theorem C35_names_exact : forall (L : Type) (uid : L -> nat) (xf : option L -> result xout) fuel (m : klayer L) names m' ns s,
  convert_model uid xf fuel m names = Ok (m', ns, s) ->
  exists nin nodes outs ys, m' = Sub nin nodes outs /\ map fst nodes = map Leaf ys /\ length ys = length ns /\
  forall pre y n post, combine ys ns = (pre ++ (y, n) :: post)%list -> exists r, asks uid names pre y r /\ taken pre r n.
Proof. intros L uid xf fuel m names m' ns s. apply convert_exact. Qed.
Print Assumptions C35_names_exact.
(** A layer "d" applied three times next to a layer named "d_0". *)
Example C35_names_exact_ex :
  match convert_model (fun l : nat => l) (fun o => Ok match o with Some l => XLayer l | None => XNone end) 5
    (Sub 1 [(Leaf 1, [(0, 0)]); (Leaf 2, [(1, 0)]); (Leaf 1, [(2, 0)]); (Leaf 1, [(3, 0)])] [(4, 0)]) (fun u => if Nat.eqb u 1 then ("d"%string, false) else ("d_0"%string, false)) with
  | Ok (_, ns, _) => ns = ["d"; "d_0"; "d_1"; "d_1_0"]%string | Raise => False end.
Proof. vm_compute. reflexivity. Qed.
(** The same when the transformer makes a new layer "d" each time. *)
Example C35_names_new_ex :
  match convert_model (fun l : nat => l) (fun o => Ok match o with Some l => XLayer l | None => XNone end) 5
    (Sub 1 [(Leaf 1, [(0, 0)]); (Leaf 2, [(1, 0)]); (Leaf 1, [(2, 0)]); (Leaf 1, [(3, 0)])] [(4, 0)]) (fun u => if Nat.eqb u 1 then ("d"%string, true) else ("d_0"%string, false)) with
  | Ok (_, ns, _) => ns = ["d"; "d_0"; "d_1"; "d_2"]%string | Raise => False end.
Proof. vm_compute. reflexivity. Qed.

Example ex_names_handed : hand_out [] ["d"; "d"; "d_0"; "d"; "e"; "d_0"]%string = ["d"; "d_0"; "d_0_0"; "d_1"; "e"; "d_0_1"]%string /\
  suffixed "dense" 12 = "dense_12"%string.
Proof. split; reflexivity. Qed.

(** ** C36: transformers that do not converge *)

Theorem C36_converges_or_raises : forall (L : Type) (uid : L -> nat) (xf : option L -> result xout) (x : L),
  match xf_chain uid xf x with
  | Ok lx => exists n, n <= 1024 /\ settled uid xf n x /\ iterate xf (S n) x = Ok lx /\ forall j, j < n -> ~ settled uid xf j x
  | Raise => forall n, n <= 1024 -> ~ settled uid xf n x
  end.
Proof.
  intros L uid xf x. rewrite xf_chain_eq. generalize 1024. intros rem.
  destruct (xf (Some x)) as [l1|] eqn:E; cbn [rbind].
  - pose proof (loop_iterate uid xf x rem 0 (XLayer x) l1 eq_refl ltac:(discriminate) E) as H. cbn [as_layer plus] in H.
    destruct (xf_loop _ _ _ _ _); [|exact H]. destruct H as [k [A [B [C D]]]]. exists k. auto.
  - intros n _. unfold settled. pose proof (iterate_raise xf x 1 E n) as R. cbn [plus] in R. rewrite R.
    destruct (iterate xf n x) as [[| |]|]; auto.
Qed.
Print Assumptions C36_converges_or_raises.

(** An error in one layer stops the whole conversion; None removes the layer:
    its consumers get its inputs and nothing is added to the new model. *)
Theorem C36_none_removes : forall (L : Type) (uid : L -> nat) (xf : option L -> result xout) (x : L) fuel path inp s,
  (xf_chain uid xf x = Ok XNone -> conv uid xf (S fuel) path (Leaf x) inp s = Ok (inp, s)) /\
  ((forall n, n <= 1024 -> ~ settled uid xf n x) -> conv uid xf (S fuel) path (Leaf x) inp s = Raise).
Proof.
  intros L uid xf x fuel path inp s. rewrite conv_leaf. split.
  - intros ->. reflexivity.
  - intros H. pose proof (C36_converges_or_raises L uid xf x) as C. destruct (xf_chain uid xf x) as [lx|]; [|reflexivity].
    destruct C as [n [A [B _]]]. exfalso. exact (H n A B).
Qed.
Print Assumptions C36_none_removes.

(** A transformer that always copies: never settles. *)
Example ex_diverges : xf_chain (fun n => n) (fun o => Ok match o with Some n => XLayer (S n) | None => XNone end) 5 = Raise.
Proof. vm_compute. reflexivity. Qed.
(** Settling after exactly 1024 changes is accepted, after 1025 it is not. *)
Example ex_limit :
  xf_chain (fun n => n) (fun o => Ok match o with Some (S n) => XLayer n | Some O => XLayer 0 | None => XNone end) 1024 = Ok (XLayer 0) /\
  xf_chain (fun n => n) (fun o => Ok match o with Some (S n) => XLayer n | Some O => XLayer 0 | None => XNone end) 1025 = Raise.
Proof. split; vm_compute; reflexivity. Qed.
