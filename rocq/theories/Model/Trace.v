(** Model of src/HGQ/bops/bops.py (trace_minmax and the callbacks) running on
    graphs of HGQ layers, and of ProxyLayerXFormer (src/HGQ/proxy/convert.py)
    on those graphs. *)
From Coq Require Import ZArith Qcanon List Bool String.
From Verif Require Import Base.Num Base.Tensor Model.FixedPoint Model.Quantizer Model.Layers Model.Graph Model.Convert.
Import ListNotations.
Local Open Scope nat_scope.

(** The activation attribute of an HActivation as far as bops.py:97-107 and
    convert.py:344 look at it. *)
Inductive act : Type := ASoftmax | ASigmoid | ATanh | ALinear | AOther.

(** An HLayerBase object: the layer, record_minmax (base.py:53), activation,
    input_shape without the batch axis, one shape per input tensor, and the
    bops variable (base.py:108). *)
Record hobj : Type := mkO { o_layer : hlayer; o_record : bool; o_act : act; o_ins : list (list nat); o_bops : Qc }.
Definition store : Type := list hobj.

Definition with_layer (o : hobj) (l : hlayer) : hobj := mkO l (o_record o) (o_act o) (o_ins o) (o_bops o).
Definition with_record (o : hobj) (b : bool) : hobj := mkO (o_layer o) b (o_act o) (o_ins o) (o_bops o).
Definition with_paq (o : hobj) (q : hgq) : hobj :=
  let l := o_layer o in with_layer o (mkL (l_op l) q (l_relu l) (l_loc l) (l_out l)).

(** Layers of a graph.  The number is the object identity.
    [KH i]: HLayerBase object i, [KQuant i]: HQuantize object i (misc.py:14),
    [KSig]: Signature (passive_layers.py:34-57), [KP]: another PLayerBase,
    [KDrop true]: PDropout, [KDrop false]: keras Dropout, [KLin]: keras linear
    Activation, [KKeras]: any other keras layer, [KFpq]: FixedPointQuantizer,
    [KRelu]: keras ReLU.  A function acts on the list of the input samples;
    keras layers act on every sample of a batch separately at inference. *)
Inductive kind : Type :=
| KH (i : nat)
| KQuant (i : nat)
| KSig (c : tensor qcfg) (out : list nat)
| KP (g : list sample -> sample)
| KDrop (p : bool)
| KLin
| KKeras (g : list sample -> sample)
| KFpq (q : fpq unit) (out : list nat)
| KRelu.
Definition layer : Type := (nat * kind)%type.

(** HLayerBase objects are KH and KQuant (isinstance checks of bops.py).
    (bops.py:60, 78, 94, 117) *)
Definition hid (k : kind) : option nat := match k with KH i | KQuant i => Some i | _ => None end.

(** A batch tensor as the list of its samples; all inputs of a layer have the
    same batch size. (the arguments of model(...), bops.py:68, 71) *)
Notation batch := (list (list Qc)) (only parsing).
Definition zip_samples (ins : list batch) : result (list (list sample)) :=
  match ins with
  | [] => Raise
  | b :: _ =>
      if forallb (fun b' => Nat.eqb (List.length b') (List.length b)) ins
      then Ok (map (fun j => map (fun b' => nth j b' []) ins) (seq 0 (List.length b)))
      else Raise
  end.

(** The samples of a tensor have the static shape Keras gave it. (input_shape, base.py:68-70) *)
Definition sized (out : list nat) (b : batch) : bool :=
  forallb (fun x => Nat.eqb (List.length x) (prodn out)) b.
Definition sized_all (shapes : list (list nat)) (ins : list batch) : bool :=
  (Nat.eqb (List.length ins) (List.length shapes) && forallb (fun sb => sized (fst sb) (snd sb)) (combine shapes ins))%bool.

Section Trace.
  Variable pw : Qc -> Qc.
  Variable ln2 : Qc.
  Let no_draw : nat -> Qc := fun _ => qz 0.

  Definition get (st : store) (i : nat) : result hobj :=
    match nth_error st i with Some o => Ok o | None => Raise end.

  (** Calling a layer with training=False.  HLayerBase.call, base.py:145-155:
      record_minmax is None, hence training or self.record_minmax. *)
  Definition call_obj (i : nat) (ins : list batch) (st : store) : result (batch * store) :=
    rbind (get st i) (fun o =>
    if negb (sized_all (o_ins o) ins) then Raise else
    rbind (zip_samples ins) (fun xs =>
    rbind (hforward pw ln2 (o_layer o) xs false (o_record o) no_draw no_draw no_draw) (fun r =>
    Ok (fst r, set_nth st i (with_layer o (snd r)))))).
  Definition one {A} (ins : list A) : result A := match ins with [b] => Ok b | _ => Raise end.
  Definition call_layer (x : layer) (ins : list batch) (st : store) : result (batch * store) :=
    match snd x with
    | KH i | KQuant i => call_obj i ins st
    | KSig _ out => rbind (one ins) (fun b => if sized out b then Ok (b, st) else Raise)
    | KDrop _ | KLin => rbind (one ins) (fun b => Ok (b, st))
    | KP g | KKeras g => rbind (zip_samples ins) (fun xs => Ok (map g xs, st))
    | KFpq q out => rbind (one ins) (fun b => if negb (sized out b) then Raise else
        rbind (fpq_call q false (batch_tensor out b)) (fun y => Ok (samples out y, st)))
    | KRelu => rbind (one ins) (fun b => Ok (map (map relu) b, st))
    end.
  (** model(x, training=False) (bops.py:68, 71) *)
  Definition call_model (m : klayer layer) (ins : list batch) (st : store) : result (list batch * store) :=
    run call_layer m ins st.

  (** The HLayerBase objects in model.layers: each object once, nested models
      are not entered (bops.py:59-60, 77-79, 91-95, 116-117). *)
  Definition node_hid (n : klayer layer * list (nat * nat)) : list nat :=
    match fst n with
    | Leaf x => match hid (snd x) with Some i => [i] | None => [] end
    | Sub _ _ _ => []
    end.
  Definition top_layers (m : klayer layer) : list nat :=
    match m with
    | Leaf _ => []
    | Sub _ nodes _ => nodup Nat.eq_dec (flat_map node_hid nodes)
    end.

  (** `for layer in model.layers: ...` with a body that changes one object and may raise.
    (bops.py:59, 77, 91, 116) *)
  Fixpoint each (f : hobj -> result hobj) (ids : list nat) (st : store) : result store :=
    match ids with
    | [] => Ok st
    | i :: ids' => rbind (get st i) (fun o => rbind (f o) (fun o' => each f ids' (set_nth st i o')))
    end.

  (** reset_minmax, base.py:238-240 *)
  Definition reset_obj (o : hobj) : hobj := with_paq o (minmax_reg_reset (l_paq (o_layer o))).
  (** bops.py:61-62 *)
  Definition start_obj (o : hobj) : result hobj := Ok (with_record (reset_obj o) true).

  (** Batches, bops.py:65-71: [data] has one list of samples per model input. *)
  Definition batches (data : list batch) (bsz : nat) : list (list batch) :=
    let n := List.length (hd [] data) in
    map (fun j => map (fun d => firstn bsz (skipn (j * bsz) d)) data) (seq 0 ((n + bsz - 1) / bsz)).
  Fixpoint feed (m : klayer layer) (bs : list (list batch)) (st : store) : result (list (list batch) * store) :=
    match bs with
    | [] => Ok ([], st)
    | b :: bs' =>
        rbind (call_model m b st) (fun r =>
        rbind (feed m bs' (snd r)) (fun rs => Ok (fst r :: fst rs, snd rs)))
    end.

  (** cover_factor on one layer, bops.py:80-88.  Registers that recorded
      nothing are +inf/-inf; numpy would make both nan and every later
      get_bits_exact would fail (quantizer.py:251); here the step raises. *)
  Definition finite (t : tensor ext) : result (tensor Qc) :=
    rbind (rseq (map (fun e => match e with Fin v => Ok v | _ => Raise end) (Tensor.data t))) (fun d => Ok (mkT (shape t) d)).
  Definition assign {A B} (reg : tensor A) (v : tensor B) : result (tensor B) :=
    if list_eq_dec Nat.eq_dec (shape reg) (shape v) then Ok v else Raise.
  Definition cover_obj (c : Qc) (o : hobj) : result hobj :=
    let aq := l_paq (o_layer o) in
    rbind (finite (q_min aq)) (fun mn =>
    rbind (finite (q_max aq)) (fun mx =>
    let mean a b := ((a + b) / qz 2)%Qc in
    let diff a b := ((b - a) / qz 2)%Qc in
    rbind (bmap2 (qz 0) (qz 0) (fun a b => mean a b - diff a b * c)%Qc mn mx) (fun mn' =>
    rbind (bmap2 (qz 0) (qz 0) (fun a b => mean a b + diff a b * c)%Qc mn mx) (fun mx' =>
    rbind (call pw ln2 aq mn' false false no_draw) (fun r1 =>
    rbind (assign (q_min aq) (fst r1)) (fun a =>
    rbind (call pw ln2 (with_minmax (snd r1) (tmap Fin a) (q_max aq)) mx' false false no_draw) (fun r2 =>
    rbind (assign (q_max aq) (fst r2)) (fun b =>
    Ok (with_paq o (with_minmax (snd r2) (tmap Fin a) (tmap Fin b))))))))))).

  (** Range correction of bounded activations, bops.py:91-110 *)
  Definition fix_obj (o : hobj) : result hobj :=
    let aq := l_paq (o_layer o) in
    Ok match o_act o with
       | ASoftmax => with_paq o (with_minmax aq (tmap (fun _ => Fin (qz 0)) (q_min aq)) (tmap (fun _ => Fin (qz 1)) (q_max aq)))
       | ASigmoid => with_paq o (with_minmax aq (tmap (fun e => ext_max e (Fin (qz 0))) (q_min aq))
                                               (tmap (fun e => ext_min e (Fin (qz 1))) (q_max aq)))
       | ATanh => with_paq o (with_minmax aq (tmap (fun e => ext_max e (Fin (- qz 1)%Qc)) (q_min aq))
                                            (tmap (fun e => ext_min e (Fin (qz 1))) (q_max aq)))
       | ALinear | AOther => o
       end.

  (** compute_exact_bops of object i (base.py:242-246, dense.py:74-80,
      conv.py:129-135, batchnorm_base.py:224-234), from the store. *)
  Variable exact_bops : store -> nat -> result Qc.
  (** bops.py:115-120 *)
  Fixpoint count_bops (ids : list nat) (st : store) : result (Qc * store) :=
    match ids with
    | [] => Ok (qz 0, st)
    | i :: ids' =>
        rbind (get st i) (fun o =>
        let st := set_nth st i (with_record o false) in
        rbind (exact_bops st i) (fun d =>
        let o := with_record o false in
        let st := set_nth st i (mkO (o_layer o) (o_record o) (o_act o) (o_ins o) d) in
        rbind (count_bops ids' st) (fun r => Ok (d + fst r, snd r)%Qc)))
    end.

  (** trace_minmax, bops.py:57-127: the returned BOPs, the predictions (one
      list of output tensors per batch) and the store afterwards. *)
  Definition cover_step (m : klayer layer) (c : Qc) (st : store) : result store :=
    if qeqb c (qz 1) then Ok st
    else if qltb (qz 0) c then each (cover_obj c) (top_layers m) st else Raise.
  Definition trace_minmax (m : klayer layer) (data : list batch) (bsz : nat) (rst : bool) (c : Qc) (no_bops : bool)
    (st : store) : result (Qc * list (list batch) * store) :=
    rbind (if rst then each start_obj (top_layers m) st else Ok st) (fun st =>
    if Nat.eqb bsz 0 then Raise else
    rbind (feed m (batches data bsz) st) (fun rs =>
    rbind (cover_step m c (snd rs)) (fun st =>
    rbind (each fix_obj (top_layers m) st) (fun st =>
    if no_bops then Ok (- qz 1, fst rs, st)%Qc
    else rbind (count_bops (top_layers m) st) (fun r => Ok (fst r, fst rs, snd r)))))).

  (** ResetMinMax.reset_minmax, bops.py:34-39 *)
  Definition reset_id (st : store) (i : nat) : result store :=
    rbind (get st i) (fun o => Ok (set_nth st i (reset_obj o))).
  Fixpoint reset_minmax (m : klayer layer) (st : store) : result store :=
    match m with
    | Leaf _ => Ok st
    | Sub _ nodes _ =>
        (fix go (ns : list (klayer layer * list (nat * nat))) (st : store) : result store :=
           match ns with
           | [] => Ok st
           | (k, _) :: ns' =>
               rbind (match k with
                      | Sub _ _ _ => reset_minmax k st
                      | Leaf x => match hid (snd x) with Some i => reset_id st i | None => Ok st end
                      end) (go ns')
           end) nodes st
    end.

  (** FreeBOPs._bops, bops.py:17-25: model.layers lists an object once; a
      nested model that occurs at several nodes is taken to be several models. *)
  Fixpoint free_bops (m : klayer layer) (st : store) : result Qc :=
    match m with
    | Leaf _ => Ok (qz 0)
    | Sub _ nodes _ =>
        (fix go (ns : list (klayer layer * list (nat * nat))) (seen : list nat) : result Qc :=
           match ns with
           | [] => Ok (qz 0)
           | (k, _) :: ns' =>
               match k with
               | Sub _ _ _ => rbind (free_bops k st) (fun b => rbind (go ns' seen) (fun r => Ok (b + r)%Qc))
               | Leaf x =>
                   match hid (snd x) with
                   | None => go ns' seen
                   | Some i => if existsb (Nat.eqb i) seen then go ns' seen
                               else rbind (get st i) (fun o => rbind (go ns' (i :: seen)) (fun r => Ok (o_bops o + r)%Qc))
                   end
               end
           end) nodes []
    end.

  (** ** ProxyLayerXFormer, convert.py:261-348 (hls4ml not installed).  New
      objects get new identities. *)
  Definition fresh (u k : nat) : nat := 8 * u + k + 1.
  Definition proxy_xf (S : string) (st : store) (x : option layer) : result (xout (L := layer)) :=
    match x with
    | None => Ok XNone                                                         (* convert.py:281-282 *)
    | Some (u, k) =>
        match k with
        | KQuant i => rbind (get st i) (fun o =>                               (* convert.py:290-293 *)
            rbind (layer_quantizer (o_layer o) false S) (fun q => Ok (XLayer (fresh u 0, KFpq q (l_out (o_layer o))))))
        | KSig c out => Ok (XLayer (fresh u 0, KFpq (fpq_init c "TRN"%string S tt) out))   (* convert.py:295-297 *)
        | KH i => rbind (get st i) (fun o =>                                   (* convert.py:299-331 *)
            rbind (to_proxy pw ln2 (o_layer o) S) (fun p =>
            let n := List.length (o_ins o) in
            let klay := (fresh u 0, match o_act o with ALinear => KLin | _ => KKeras (p_op p) end) in
            let first := (Leaf klay, map (fun j => (j, 0)) (seq 0 n)) in
            match p_chain p with
            | One q => Ok (XModel (Sub n [first; (Leaf (fresh u 1, KFpq q (p_out p)), [(n, 0)])] [(n + 1, 0)]))
            | Two q1 q2 => Ok (XModel (Sub n [first; (Leaf (fresh u 1, KFpq q1 (p_out p)), [(n, 0)]);
                                              (Leaf (fresh u 2, KRelu), [(n + 1, 0)]);
                                              (Leaf (fresh u 3, KFpq q2 (p_out p)), [(n + 2, 0)])] [(n + 3, 0)]))
            end))
        | KP g => Ok (XLayer (fresh u 0, KKeras g))                            (* convert.py:333-336 *)
        | KDrop true => Ok (XLayer (fresh u 0, KDrop false))
        | KDrop false => Ok XNone                                              (* convert.py:338-341 *)
        | KLin => Ok XNone                                                     (* convert.py:343-347 *)
        | KKeras _ | KFpq _ _ | KRelu => Ok (XLayer (u, k))                    (* convert.py:279-288 *)
        end
    end.

  (** to_proxy_model without unary tables, convert.py:371 *)
  Definition to_proxy_model (fuel : nat) (aggressive : bool) (m : klayer layer) (names : nat -> string * bool) (st : store) :=
    convert_model (fun x => fst x) (proxy_xf (if aggressive then "WRAP" else "SAT")%string st) fuel m names.
End Trace.
