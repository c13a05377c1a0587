(** C92: converting a model renames its layers; what depends on it. *)
From Coq Require Import List Arith String Bool Lia.
From Verif Require Import Base.Num Base.Tensor Model.Graph Model.Convert Spec.Graph Spec.Names Spec.Rename Proofs.ConvertP Proofs.NamesP Proofs.NodesP Proofs.RenameP.
Import ListNotations.
Local Open Scope nat_scope.

Lemma layers_pairs {L} nin (nodes : list (klayer L * list (nat * nat))) outs ys : map fst nodes = map Leaf ys -> layers_of (Sub nin nodes outs) = ys.
Proof.
  cbn. revert ys. induction nodes as [|n nodes IH]; intros [|y ys] E; try discriminate; [reflexivity|]. cbn in *. injection E as E1 E2.
  rewrite E1. cbn. f_equal. apply IH, E2.
Qed.

(** The converted graph does not depend on the names. *)
Theorem C92_graph : forall (L : Type) (uid : L -> nat) xf fuel (m : klayer L) names names' m' ns s,
  convert_model uid xf fuel m names = Ok (m', ns, s) -> exists ns' s', convert_model uid xf fuel m names' = Ok (m', ns', s').
Proof.
  intros L uid xf fuel m names names' m' ns s E. pose proof (convert_bare uid xf fuel m names names') as C. rewrite E in C.
  destruct (convert_model uid xf fuel m names') as [[[a b] c]|]; [|contradiction]. cbn in C. subst a. eauto.
Qed.
Print Assumptions C92_graph.

(** Only layers that are themselves passed on to the new model are renamed: not those the transformer replaces. *)
Theorem C92_others : forall (L : Type) (uid : L -> nat) xf fuel (m : klayer L) names m' ns s y,
  convert_model uid xf fuel m names = Ok (m', ns, s) ->
  snd (names (uid y)) = true \/ ~ In (uid y) (map uid (layers_of m')) -> c_name s (uid y) = names (uid y).
Proof.
  intros L uid xf fuel m names m' ns s y E H. destruct (convert_xinv uid xf _ _ _ _ _ _ E) as (X & _ & nin & nodes & outs & -> & Em).
  rewrite (layers_pairs _ _ _ _ Em) in H. apply (kept uid names s X). destruct H as [H|H]; [left; exact H|right].
  intros z n Hz Ez. apply H. rewrite <- Ez, map_map. apply in_map_iff. exists (z, n). auto.
Qed.
Print Assumptions C92_others.

(** If the layers passed on are new or have different names, no layer is renamed and converting again gives the same
    model with the same names; in the second case each layer keeps its name in the new model. *)
Theorem C92_again : forall (L : Type) (uid : L -> nat) xf fuel (m : klayer L) names m' ns s,
  convert_model uid xf fuel m names = Ok (m', ns, s) ->
  (forall y, In y (layers_of m') -> snd (names (uid y)) = true) \/ NoDup (map (fun y => fst (names (uid y))) (layers_of m')) ->
  (forall y, c_name s (uid y) = names (uid y)) /\
  (exists s', convert_model uid xf fuel m (c_name s) = Ok (m', ns, s') /\ forall y, c_name s' (uid y) = names (uid y)) /\
  (NoDup (map (fun y => fst (names (uid y))) (layers_of m')) -> ns = map (fun y => fst (names (uid y))) (layers_of m')).
Proof.
  intros L uid xf fuel m names m' ns s E H. destruct (convert_xinv uid xf _ _ _ _ _ _ E) as (X & En & nin & nodes & outs & Em' & Em).
  assert (EL : layers_of m' = map fst (pairs s)) by (rewrite Em'; apply layers_pairs; exact Em). rewrite EL in *.
  assert (K : forall y, c_name s (uid y) = names (uid y)).
  { destruct H as [H|H].
    - intros y. apply (kept uid names s X). destruct (in_dec Nat.eq_dec (uid y) (map uid (map fst (pairs s)))) as [I|I].
      + left. apply in_map_iff in I. destruct I as [z [Ez Hz]]. rewrite <- Ez. apply H, Hz.
      + right. intros z n Hz Ez. apply I. rewrite <- Ez, map_map. apply in_map_iff. exists (z, n). auto.
    - apply (kept_distinct uid names s X). rewrite map_map in H. exact H. }
  split; [exact K|]. split.
  - pose proof (convert_ext uid xf fuel m names (c_name s) (fun y => eq_sym (K y))) as C. rewrite E in C.
    destruct (convert_model uid xf fuel m (c_name s)) as [[[a b] c]|]; [|contradiction]. destruct C as [C1 (_ & _ & _ & C2)]. cbn in C1, C2.
    injection C1 as <- <-. exists c. split; [reflexivity|]. intros y. rewrite <- C2. apply K.
  - intros N. rewrite map_map in *. rewrite En. apply distinct_names; [apply X|exact N].
Qed.
Print Assumptions C92_again.

(** Not in general: a layer used twice, passed on by the transformer (here the identity, as in convert_model(model)), is
    renamed, and converting again gives other names. *)
Definition keep_xf (o : option nat) : result (xout (L := nat)) := Ok match o with Some l => XLayer l | None => XNone end.
Definition used_twice : klayer nat := Sub 1 [(Leaf 1, [(0, 0)]); (Leaf 2, [(1, 0)]); (Leaf 1, [(2, 0)])] [(3, 0)].
Theorem C92_again_refuted : ~ forall (L : Type) (uid : L -> nat) xf fuel (m : klayer L) names m' ns s,
  convert_model uid xf fuel m names = Ok (m', ns, s) -> exists s', convert_model uid xf fuel m (c_name s) = Ok (m', ns, s').
Proof.
  intros C. specialize (C nat (fun l => l) keep_xf 5 used_twice (fun u => (if Nat.eqb u 1 then "x" else "y", false)%string)).
  destruct (convert_model _ _ _ _ _) as [[[m' ns] s]|] eqn:E; vm_compute in E; [|discriminate]. injection E as <- <- <-.
  destruct (C _ _ _ eq_refl) as [s' F]. vm_compute in F. discriminate.
Qed.
Print Assumptions C92_again_refuted.
Example C92_again_refuted_ex :
  match convert_model (fun l => l) keep_xf 5 used_twice (fun u => (if Nat.eqb u 1 then "x" else "y", false)%string) with
  | Ok (m', ns, s) => ns = ["x"; "y"; "x_0"]%string /\ fst (c_name s 1) = "x_0"%string /\
      match convert_model (fun l => l) keep_xf 5 used_twice (c_name s) with
      | Ok (m'', ns', s') => m'' = m' /\ ns' = ["x_0"; "y"; "x_0_0"]%string /\ fst (c_name s' 1) = "x_0_0"%string
      | Raise => False end
  | Raise => False end.
Proof. vm_compute. repeat split. Qed.
(** The same graph with a transformer that makes new layers (named like the old ones), and with different layers. *)
Definition make_xf (o : option nat) : result (xout (L := nat)) := Ok match o with Some l => XLayer (if Nat.ltb l 10 then 10 + l else l) | None => XNone end.
Example C92_again_ex :
  match convert_model (fun l => l) make_xf 5 used_twice (fun u => (if Nat.eqb (u mod 10) 1 then "x" else "y", Nat.leb 10 u)%string) with
  | Ok (m', ns, s) => layers_of m' = [11; 12; 11] /\ ns = ["x"; "y"; "x_0"]%string /\ fst (c_name s 1) = "x"%string
  | Raise => False end /\
  match convert_model (fun l => l) keep_xf 5 (Sub 1 [(Leaf 1, [(0, 0)]); (Leaf 2, [(1, 0)])] [(2, 0)]) (fun u => (if Nat.eqb u 1 then "x" else "y", false)%string) with
  | Ok (m', ns, s) => layers_of m' = [1; 2] /\ ns = ["x"; "y"]%string
  | Raise => False end.
Proof. vm_compute. repeat split. Qed.
