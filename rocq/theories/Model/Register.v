(** Model of the registration of precision configurations:
    src/HGQ/proxy/precision_derivation.py (lines 374-419) and the last loop of
    to_proxy_model (src/HGQ/proxy/convert.py:374-377). *)
From Coq Require Import ZArith Qcanon List Bool String.
From Verif Require Import Base.Num Base.Tensor Model.FixedPoint Model.Precision.
Import ListNotations.
Open Scope Z_scope.

(** A value in a configuration: a type string or an integer (table sizes,
    parallelization factors). (convert.py:315, precision_derivation.py:354-361) *)
Inductive cval : Type := CStr (t : string) | CInt (z : Z).
(** The configuration of one layer, and the dictionary overrides['layers'] of
    one quantizer: dictionaries in insertion order.
    (convert.py:312-315, precision_derivation.py:418-419) *)
Definition entry : Type := list (string * cval).
Definition layers_dict : Type := list (string * entry).
(** The overrides of the quantizers, by their position in the store: None if
    there is no key 'layers' (the constructor always puts one when no
    overrides are given, fixed_point_quantizer.py:172). *)
Definition ovs : Type := list (option layers_dict).

(** d.get(k) (precision_derivation.py:419) *)
Definition dget {A} (d : list (string * A)) (k : string) : option A :=
  match find (fun p => String.eqb (fst p) k) d with Some p => Some (snd p) | None => None end.
(** d[k] = v (precision_derivation.py:419) *)
Fixpoint dput {A} (d : list (string * A)) (k : string) (v : A) : list (string * A) :=
  match d with
  | [] => [(k, v)]
  | (k', v') :: d' => if String.eqb k' k then (k', v) :: d' else (k', v') :: dput d' k v
  end.
(** d.update(e) (precision_derivation.py:419) *)
Definition dupdate {A} (d e : list (string * A)) : list (string * A) := fold_left (fun d p => dput d (fst p) (snd p)) e d.
(** d.setdefault(k, {}) followed by .update(e), line 419. *)
Definition set_update (d : layers_dict) (k : string) (e : entry) : layers_dict :=
  dput d k (dupdate (match dget d k with Some x => x | None => [] end) e).

(** The dictionary get_config returns (lines 350-371). *)
Definition conf_entry (c : conf) : entry :=
  (map (fun p => (fst p, CStr (snd p))) (fst c) ++ match snd c with None => [] | Some z => [("table_size"%string, CInt z)] end)%list.

Definition is_fpq (net : pnet) (n : nat) : option nat :=
  match nth_error net n with Some (NFpq q, _) => Some q | _ => None end.

(** The first result that is not None. (precision_derivation.py:376-383, 407) *)
Fixpoint first_some (f : nat -> option nat) (l : list nat) : option nat :=
  match l with
  | [] => None
  | m :: l' => match f m with Some q => Some q | None => first_some f l' end
  end.

(** _get_next_quantizer, lines 374-383.  A layer that consumes another one
    twice is visited once.  [fuel] bounds the recursion, whose depth is at most
    the number of layers. *)
Fixpoint next_quantizer (fuel : nat) (net : pnet) (n : nat) : option nat :=
  match fuel with
  | O => None
  | S fu => first_some (fun m => match is_fpq net m with Some q => Some q | None => next_quantizer fu net m end) (out_layers net n)
  end.

(** _get_last_quantizer, lines 386-398; every layer of a converted model is
    called once (C34), so the assertion of line 388 holds. *)
Fixpoint last_quantizer (fuel : nat) (net : pnet) (n : nat) : option nat :=
  match fuel with
  | O => None
  | S fu =>
    match nth_error net n with
    | None => None
    | Some (_, ps) => first_some (fun m => match is_fpq net m with Some q => Some q | None => last_quantizer fu net m end) ps
    end
  end.

(** get_whatever_quantizer, lines 401-409. *)
Definition whatever_quantizer (fuel : nat) (net : pnet) (n : nat) : result nat :=
  match is_fpq net n with
  | Some q => Ok q
  | None =>
    match next_quantizer fuel net n with
    | Some q => Ok q
    | None => match last_quantizer fuel net n with Some q => Ok q | None => Raise end
    end
  end.

(** register_qconf, lines 412-419.  hasattr(layer, 'proxy_ready') holds for
    UnaryLUT (unary_lut.py:18). *)
Definition register_qconf (fuel : nat) (net : pnet) (names : list string) (offset : option Z) (n : nat) (st : pst * ovs) : result (pst * ovs) :=
  match nth_error net n with
  | None => Raise
  | Some (NLut _, _) => Ok st
  | Some _ =>
    rbind (whatever_quantizer fuel net n) (fun q =>
    rbind (layer_config fuel net n (fst st) offset) (fun c =>
    match nth_error (snd st) q, nth_error names n with
    | Some (Some d), Some name => Ok (snd c, upd (snd st) q (Some (set_update d name (conf_entry (fst c)))))
    | _, _ => Raise
    end))
  end.

(** for layer in proxy.layers: register_qconf(layer, ...), convert.py:374-377. *)
Fixpoint register_layers (fuel : nat) (net : pnet) (names : list string) (offset : option Z) (ls : list nat) (st : pst * ovs) : result (pst * ovs) :=
  match ls with
  | [] => Ok st
  | n :: ls' => rbind (register_qconf fuel net names offset n st) (register_layers fuel net names offset ls')
  end.
Definition register_all (fuel : nat) (net : pnet) (names : list string) (offset : option Z) (st : pst * ovs) : result (pst * ovs) :=
  register_layers fuel net names offset (seq 0 (List.length net)) st.

(** The overrides of the first quantizer of a converted layer,
    convert.py:312-315. *)
Definition xformer_overrides (name : string) (parallel_factor : option Z) : layers_dict :=
  match parallel_factor with None => [] | Some p => [(name, [("parallelization_factor"%string, CInt p)])] end.
