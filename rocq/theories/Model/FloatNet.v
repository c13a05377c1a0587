(** Networks of HGQ layers, tracing and the proxy model in IEEE single precision: Model/Trace.v with the layers
    of Model/FloatLayer.v (src/HGQ/bops/bops.py:57-127, src/HGQ/proxy/convert.py:261-371).

    Functions of activations and of passive layers are arbitrary in Model/Trace.v; here they are what TensorFlow
    computes in single precision, the same in the model and in its proxy.  Bitwidths, formats and bit operations
    are computed from the registers as in the exact model. *)
From Coq Require Import ZArith Qcanon List Bool String.
From Verif Require Import Base.Num Base.Tensor Model.FixedPoint Model.Quantizer Model.Layers Model.Graph Model.Convert Model.Trace
  Model.Float32 Model.FloatLayer.
Import ListNotations.
Local Open Scope nat_scope.

(** Recording the extremes of the quantized values, quantizer.py:170-177. *)
Definition observe32 (record : bool) (q : hgq) (y : tensor Qc) : result hgq :=
  if negb record then Ok q
  else rbind (record_min (q_skip q) y (q_min q)) (fun mn =>
       rbind (record_max (q_skip q) y (q_max q)) (fun mx => Ok (with_minmax q mn mx))).

Section Acc.
  Variable acc : list (Qc * Qc) -> Qc.

  (** jit_forward, dense.py:61-72, conv.py:116-127, misc.py:22-24, 53-55, 64-67: the outputs and the layer afterwards. *)
  Definition hcall32 (l : hlayer) (xs : list (list sample)) (record : bool) : result (list sample * hlayer) :=
    rbind (pre_activation32 acc l xs) (fun zs =>
    rbind (call32 (l_paq l) (batch_tensor (l_out l) zs)) (fun y =>
    rbind (observe32 record (clip_fbw (l_paq l)) y) (fun q =>
    let ys := samples (l_out l) y in
    let op := match l_op l with Linear ts kernel kq bias loc => Linear ts kernel (clip_fbw kq) bias loc | Fn g => Fn g end in
    Ok (if l_relu l then map (map relu) ys else ys, mkL op q (l_relu l) (l_loc l) (l_out l))))).

  (** HLayerBase.call with training=False, base.py:145-155 *)
  Definition call_obj32 (i : nat) (ins : list (list sample)) (st : store) : result (list sample * store) :=
    rbind (get st i) (fun o =>
    if negb (sized_all (o_ins o) ins) then Raise else
    rbind (zip_samples ins) (fun xs =>
    rbind (hcall32 (o_layer o) xs (o_record o)) (fun r => Ok (fst r, set_nth st i (with_layer o (snd r)))))).
  (** Layers of a model: base.py:145-155, passive_layers.py:34-57, fixed_point_quantizer.py:178-182. *)
  Definition call_layer32 (x : layer) (ins : list (list sample)) (st : store) : result (list sample * store) :=
    match snd x with
    | KH i | KQuant i => call_obj32 i ins st
    | KSig _ out => rbind (one ins) (fun b => if sized out b then Ok (b, st) else Raise)
    | KDrop _ | KLin => rbind (one ins) (fun b => Ok (b, st))
    | KP g | KKeras g => rbind (zip_samples ins) (fun xs => Ok (map g xs, st))
    | KFpq q out => rbind (one ins) (fun b => if negb (sized out b) then Raise else
        rbind (fpq_call32 q (batch_tensor out b)) (fun y => Ok (samples out y, st)))
    | KRelu => rbind (one ins) (fun b => Ok (map (map relu) b, st))
    end.
  (** model(x, training=False), bops.py:68, 71 *)
  Definition call_model32 (m : klayer layer) (ins : list (list sample)) (st : store) : result (list (list sample) * store) :=
    run call_layer32 m ins st.

  (** The batches, bops.py:65-71 *)
  Fixpoint feed32 (m : klayer layer) (bs : list (list (list sample))) (st : store) : result (list (list (list sample)) * store) :=
    match bs with
    | [] => Ok ([], st)
    | b :: bs' =>
        rbind (call_model32 m b st) (fun r =>
        rbind (feed32 m bs' (snd r)) (fun rs => Ok (fst r :: fst rs, snd rs)))
    end.

  (** cover_factor on one layer, bops.py:80-88; every operation of numpy rounds. *)
  Definition cover_obj32 (c : Qc) (o : hobj) : result hobj :=
    let aq := l_paq (o_layer o) in
    rbind (finite (q_min aq)) (fun mn =>
    rbind (finite (q_max aq)) (fun mx =>
    let mean a b := rn32 (rn32 (a + b) / qz 2)%Qc in
    let diff a b := rn32 (rn32 (b - a) / qz 2)%Qc in
    rbind (bmap2 (qz 0) (qz 0) (fun a b => rn32 (mean a b - rn32 (diff a b * c)))%Qc mn mx) (fun mn' =>
    rbind (bmap2 (qz 0) (qz 0) (fun a b => rn32 (mean a b + rn32 (diff a b * c)))%Qc mn mx) (fun mx' =>
    rbind (call32 aq mn') (fun a =>
    rbind (assign (q_min aq) a) (fun a =>
    rbind (call32 aq mx') (fun b =>
    rbind (assign (q_max aq) b) (fun b =>
    Ok (with_paq o (with_minmax (clip_fbw aq) (tmap Fin a) (tmap Fin b))))))))))).
  (** The branch on cover_factor, bops.py:72-78. *)
  Definition cover_step32 (m : klayer layer) (c : Qc) (st : store) : result store :=
    if qeqb c (qz 1) then Ok st
    else if qltb (qz 0) c then each (cover_obj32 c) (top_layers m) st else Raise.

  (** trace_minmax, bops.py:57-127 *)
  Definition trace_minmax32 (exact_bops : store -> nat -> result Qc) (m : klayer layer) (data : list (list sample)) (bsz : nat)
    (rst : bool) (c : Qc) (no_bops : bool) (st : store) : result (Qc * list (list (list sample)) * store) :=
    rbind (if rst then each start_obj (top_layers m) st else Ok st) (fun st =>
    if Nat.eqb bsz 0 then Raise else
    rbind (feed32 m (batches data bsz) st) (fun rs =>
    rbind (cover_step32 m c (snd rs)) (fun st =>
    rbind (each fix_obj (top_layers m) st) (fun st =>
    if no_bops then Ok (- qz 1, fst rs, st)%Qc
    else rbind (count_bops exact_bops (top_layers m) st) (fun r => Ok (fst r, fst rs, snd r)))))).

  (** ProxyLayerXFormer, convert.py:261-348; only the weights are computed in single precision. *)
  Definition proxy_xf32 (S : string) (st : store) (x : option layer) : result (xout (L := layer)) :=
    match x with
    | None => Ok XNone                                                         (* convert.py:281-282 *)
    | Some (u, k) =>
        match k with
        | KQuant i => rbind (get st i) (fun o =>                               (* convert.py:290-293 *)
            rbind (layer_quantizer (o_layer o) false S) (fun q => Ok (XLayer (fresh u 0, KFpq q (l_out (o_layer o))))))
        | KSig c out => Ok (XLayer (fresh u 0, KFpq (fpq_init c "TRN"%string S tt) out))   (* convert.py:295-297 *)
        | KH i => rbind (get st i) (fun o =>                                   (* convert.py:299-331 *)
            rbind (to_proxy32 acc (o_layer o) S) (fun p =>
            let n := List.length (o_ins o) in
            let klay := (fresh u 0, match o_act o with ALinear => KLin | _ => KKeras (p_op p) end) in
            let first := (Leaf klay, map (fun j => (j, 0)) (seq 0 n)) in
            match p_chain p with
            | One q => Ok (XModel (Sub n [first; (Leaf (fresh u 1, KFpq q (p_out p)), [(n, 0)])] [(n + 1, 0)]))
            | Two q1 q2 => Ok (XModel (Sub n [first; (Leaf (fresh u 1, KFpq q1 (p_out p)), [(n, 0)]);
                                              (Leaf (fresh u 2, KRelu), [(n + 1, 0)]);
                                              (Leaf (fresh u 3, KFpq q2 (p_out p)), [(n + 2, 0)])] [(n + 3, 0)]))
            end))
        | KP g => Ok (XLayer (fresh u 0, KKeras g))                            (* convert.py:333-336 *)
        | KDrop true => Ok (XLayer (fresh u 0, KDrop false))
        | KDrop false => Ok XNone                                              (* convert.py:338-341 *)
        | KLin => Ok XNone                                                     (* convert.py:343-347 *)
        | KKeras _ | KFpq _ _ | KRelu => Ok (XLayer (u, k))                    (* convert.py:279-288 *)
        end
    end.
  (** to_proxy_model without unary tables, convert.py:371 *)
  Definition to_proxy_model32 (fuel : nat) (aggressive : bool) (m : klayer layer) (names : nat -> string * bool) (st : store) :=
    convert_model (fun x => fst x) (proxy_xf32 (if aggressive then "WRAP" else "SAT")%string st) fuel m names.
End Acc.
