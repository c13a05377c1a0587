(** Model of the graph conversion of src/HGQ/proxy/convert.py: Namer,
    solve_dependencies, _get_out_tensor, apply_layer, convert_model. *)
From Coq Require Import List Arith String Bool DecimalString Decimal.
From Verif Require Import Base.Num Base.Tensor Model.Graph.
Import ListNotations.
Local Open Scope string_scope.

(** ** Namer, convert.py:91-104 *)

(** f'{name}_{i}' (convert.py:100-102) *)
Definition suffixed (name : string) (i : nat) : string :=
  name ++ "_" ++ NilEmpty.string_of_uint (Nat.to_uint i).
Definition mem (s : string) (l : list string) : bool := existsb (String.eqb s) l.
(** The while loop, convert.py:100-101; the fuel is enough because there are
    only that many used names (see Proofs/ConvertP.v). *)
Fixpoint first_unused (fuel : nat) (used : list string) (name : string) (i : nat) : nat :=
  match fuel with
  | O => i
  | S fu => if mem (suffixed name i) used then first_unused fu used name (S i) else i
  end.
(** next_name, convert.py:97-104: the name and the new set of used names. *)
Definition next_name (used : list string) (name : string) : string * list string :=
  let name' := if mem name used
               then suffixed name (first_unused (S (List.length used)) used name 0) else name in
  (name', name' :: used).

Section Convert.
  Context {L : Type}.
  (** Object identity of a layer. *)
  Variable uid : L -> nat.

  (** What a layer transformer returns: None, a layer, or a model; it may also raise.
    (convert.py:149-170) *)
  Inductive xout : Type := XNone | XLayer (y : L) | XModel (m : klayer L).
  Variable xf : option L -> result xout.

  (** `layer_xf is layer` (convert.py:152) *)
  Definition same (layer : option L) (lx : xout) : bool :=
    match layer, lx with
    | None, XNone => true
    | Some a, XLayer b => Nat.eqb (uid a) (uid b)
    | _, _ => false
    end.

  (** The loop of apply_layer, convert.py:149-159.  [rem] = 1024 - n. *)
  Fixpoint xf_loop (rem : nat) (layer : option L) (lx : xout) : result xout :=
    if same layer lx then Ok lx
    else match lx with
         | XModel m => Ok lx
         | XNone => match rem with O => Raise | S r => rbind (xf None) (xf_loop r None) end
         | XLayer y => match rem with O => Raise | S r => rbind (xf (Some y)) (xf_loop r (Some y)) end
         end.
  Definition xf_chain (layer : L) : result xout := rbind (xf (Some layer)) (xf_loop 1024 (Some layer)).

  (** A (nested) list of symbolic tensors. (convert.py:121-131, 193-194) *)
  Inductive tv : Type := T (i : nat) | Ts (l : list tv).

  (** The converted model under construction: its layers in order of
      application with their names and input tensors (numbered: first the
      inputs, then one per layer), the names handed out, the current _name of
      each layer object, and whether the transformer makes this object anew
      each time, as ProxyLayerXFormer does (then each has the name given when
      made); [c_log] records which nodes were applied (by path).
    (convert.py:91-104, 161-170, 191; 255, 290-331) *)
  Record cst : Type := mkC {
    c_nin : nat; c_out : list (L * string * list nat); c_used : list string; c_name : nat -> string * bool;
    c_log : list (list nat) }.

  Definition flat_tv (t : tv) : result (list nat) :=
    match t with
    | T i => Ok [i]
    | Ts l => rseq (map (fun u => match u with T i => Ok i | Ts _ => Raise end) l)
    end.

  (** convert.py:162-168: name the layer (also on the object itself), copy it, call it.
      Calling an ordinary layer on nested lists is an error. *)
  Definition emit (y : L) (inp : tv) (s : cst) : result (tv * cst) :=
    let '(name, used) := next_name (c_used s) (fst (c_name s (uid y))) in
    rbind (flat_tv inp) (fun ins =>
    Ok (T (c_nin s + List.length (c_out s)),
        mkC (c_nin s) (c_out s ++ [(y, name, ins)])%list used
            (fun u => if Nat.eqb u (uid y) && negb (snd (c_name s u)) then (name, false) else c_name s u) (c_log s))).

  Fixpoint mapS {A B S} (f : A -> S -> result (B * S)) (l : list A) (s : S) : result (list B * S) :=
    match l with
    | [] => Ok ([], s)
    | a :: l' => rbind (f a s) (fun r => rbind (mapS f l' (snd r)) (fun r' => Ok (fst r :: fst r', snd r')))
    end.

  Definition lookup (sat : list (nat * tv)) (id : nat) : option tv :=
    match find (fun p => Nat.eqb (fst p) id) sat with Some p => Some (snd p) | None => None end.
  Definition unwrap (l : list tv) : tv := match l with [t] => t | _ => Ts l end.
  Definition add_log (p : list nat) (s : cst) : cst :=
    mkC (c_nin s) (c_out s) (c_used s) (c_name s) (c_log s ++ [p])%list.

  (** apply_layer, convert.py:136-194, and _get_out_tensor, convert.py:107-132
      (here [get]; [d] bounds the recursion depth on nodes, enough for
      topologically numbered graphs).  [fuel] bounds the nesting of models,
      also of the models returned by the transformer (Python's recursion
      limit).  [path] identifies the position of the model being converted.
      The tensor index inside a node's outputs is not looked at
      (parent_nodes, t.node: convert.py:39-40, 51). *)
  Fixpoint conv (fuel : nat) (path : list nat) (k : klayer L) (inp : tv) (s : cst) : result (tv * cst) :=
    match fuel with
    | O => Raise
    | S fu =>
        match k with
        | Leaf x =>
            rbind (xf_chain x) (fun lx =>
            match lx with
            | XModel m => conv fu path m inp s
            | XNone => Ok (inp, s)
            | XLayer y => emit y inp s
            end)
        | Sub nin nodes outs =>
            let inps := match inp with T i => [T i] | Ts l => l end in
            let fix get (d : nat) (id : nat) (ss : list (nat * tv) * cst)
              : result (tv * (list (nat * tv) * cst)) :=
              match d with
              | O => Raise
              | S d' =>
                  match lookup (fst ss) id with
                  | Some t => Ok (t, ss)
                  | None =>
                      if Nat.ltb id nin then Raise else
                      match nth_error nodes (id - nin) with
                      | None => Raise
                      | Some (k', ins) =>
                          rbind (mapS (fun r => get d' (fst r)) ins ss) (fun r =>
                          rbind (conv fu (path ++ [id])%list k' (unwrap (fst r)) (snd (snd r))) (fun ts =>
                          Ok (fst ts, ((id, fst ts) :: fst (snd r), add_log (path ++ [id])%list (snd ts)))))
                      end
                  end
              end in
            rbind (mapS (fun r => get (S (nin + List.length nodes)) (fst r)) outs (combine (seq 0 nin) inps, s)) (fun r =>
            Ok (unwrap (fst r), snd (snd r)))
        end
    end.

  (** convert_model, convert.py:197-216: the new (flat) model, its output tensors. *)
  Definition convert_model (fuel : nat) (m : klayer L) (names : nat -> string * bool)
    : result (klayer L * list string * cst) :=
    match m with
    | Leaf _ => Raise
    | Sub nin _ _ =>
        let inp := unwrap (map T (seq 0 nin)) in
        rbind (conv fuel [] m inp (mkC nin [] [] names [])) (fun r =>
        rbind (flat_tv (fst r)) (fun outs =>
        Ok (Sub nin (map (fun o => (Leaf (fst (fst o)), map (fun i => (i, 0%nat)) (snd o))) (c_out (snd r)))
                (map (fun i => (i, 0%nat)) outs), map (fun o => snd (fst o)) (c_out (snd r)), snd r)))
    end.
End Convert.
Arguments XNone {L}.
Arguments XLayer {L}.
Arguments XModel {L}.
