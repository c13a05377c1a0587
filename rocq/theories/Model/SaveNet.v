(** Saving and loading a whole proxy model (keras Model.save and load_model over FixedPointQuantizer,
    src/HGQ/proxy/fixed_point_quantizer.py:145-233, and UnaryLUT, src/HGQ/proxy/unary_lut.py:16-83).

    Saving asks every layer for its configuration, then stores the variables; loading makes the layers from their
    configurations, connects them as they were and assigns the variables.  The other layers of a proxy are keras' own, taken
    to be restored.  Dictionaries of strings and integers are taken to survive JSON. *)
From Coq Require Import ZArith Qcanon List Bool String.
From Verif Require Import Base.Num Base.Tensor Model.FixedPoint Model.Precision Model.Register Model.Lut Model.SaveProxy.
Import ListNotations.
Local Open Scope Z_scope.

(** The dictionary overrides of a quantizer as in Register.v: what is under 'layers'. (fixed_point_quantizer.py:172) *)
Definition odict : Type := option layers_dict.
(** A quantizer with its overrides, and without. (fixed_point_quantizer.py:165-172) *)
Definition with_ov {O P} (d : P) (q : fpq O) : fpq P := mkFPQ (cfgs q) (rnd_name q) (sat_name q) d.

(** The calls of quantizer q: the inputs of every layer that is q. (_inbound_nodes, fixed_point_quantizer.py:193-195) *)
Definition calls (net : pnet) (q : nat) : list (list nat) :=
  flat_map (fun l => match fst l with NFpq p => if Nat.eqb p q then [snd l] else [] | _ => [] end) net.
(** The nodes that read layer n, once per tensor read. (_outbound_nodes, fixed_point_quantizer.py:196) *)
Definition reads (net : pnet) (n : nat) : nat := List.length (filter (Nat.eqb n) (flat_map snd net)).

(** get_config of quantizer q in the model, fixed_point_quantizer.py:211-224; the layer keeps the clamped widths. *)
Definition save_quantizer (net : pnet) (q : nat) (o : fpq odict) : result (fpq_config odict * fpq odict) :=
  let cs := calls net q in
  let ps := hd [] cs in
  get_config o (List.length cs) (negb (Nat.eqb (List.length ps) 1)) (reads net (hd O ps)).

(** What is stored: configurations and variables of the quantizers, and of the lookup tables.
    (fixed_point_quantizer.py:165-167, 211-224, unary_lut.py:77-83) *)
Record saved : Type := mkSaved {
  sv_quant : list (fpq_config odict * tensor qcfg);
  sv_luts : list (nat * (kif * kif * list (list Qc))) }.

(** A proxy model in memory: the quantizers' variables, their overrides, the lookup tables by layer.
    (fixed_point_quantizer.py:165-172, unary_lut.py:25-35) *)
Record pmodel : Type := mkPM { pm_quant : pst; pm_ov : ovs; pm_luts : list (nat * ulayer) }.

(** Saving: what is stored and the model afterwards (fixed_point_quantizer.py:213-215 assigns).  A quantizer that is not
    in the model would not be stored; here it raises. *)
Definition save_model (net : pnet) (m : pmodel) : result (saved * pmodel) :=
  if negb (Nat.eqb (List.length (pm_quant m)) (List.length (pm_ov m))) then Raise else
  rbind (rseq (map (fun e => save_quantizer net (fst e) (with_ov (snd (snd e)) (fst (snd e))))
                   (combine (seq 0 (List.length (pm_quant m))) (combine (pm_quant m) (pm_ov m))))) (fun rs =>
  Ok (mkSaved (map (fun r => (fst r, cfgs (snd r))) rs) (map (fun l => (fst l, ulut_save (snd l))) (pm_luts m)),
      mkPM (map (fun r => with_ov tt (snd r)) rs) (map (fun r => overrides (snd r)) rs) (pm_luts m))).

(** Loading in a process whose LUT_SIZE_LIMITATION is [limit]: from_config, then the variables.
    (fixed_point_quantizer.py:226-233, unary_lut.py:20-35) *)
Definition load_model (limit : Z) (sv : saved) : result pmodel :=
  rbind (rseq (map (fun e => FixedPoint.set_weights (FixedPoint.from_config (fst e)) (snd e)) (sv_quant sv))) (fun os =>
  rbind (rseq (map (fun e => rbind (ulut_load limit (snd e)) (fun l => Ok (fst e, l))) (sv_luts sv))) (fun ls =>
  Ok (mkPM (map (with_ov tt) os) (map (fun o => overrides o) os) ls))).

(** The table of layer n as the lookup of Lut.v. (unary_lut.py:37-42) *)
Definition tables_of (ls : list (nat * ulayer)) (n : nat) : option ulut :=
  match find (fun e => Nat.eqb (fst e) n) ls with
  | Some e => match u_table (snd e) with Some t => Some (mkLut (snd (u_in (snd e))) (u_out (snd e)) t) | None => None end
  | None => None
  end.
