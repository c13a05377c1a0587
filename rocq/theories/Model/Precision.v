(** Model of src/HGQ/proxy/precision_derivation.py (lines 20-371). *)
From Coq Require Import ZArith Qcanon List Bool String.
From Verif Require Import Base.Num Base.Tensor Model.FixedPoint Model.Apf.
Import ListNotations.
Open Scope Z_scope.

(** A precision: sign bit, integer bits (sign excluded), fractional bits.
    (precision_derivation.py:20-21, 65-66) *)
Definition kif : Type := Z * Z * Z.

(** ** Constant arrays *)

(** x.astype(np.int64): truncation towards zero; values outside the int64
    range give the smallest int64 (x86). (line 32) *)
Definition astype_int64 (x : Qc) : Z :=
  let t := if qltb x (qz 0) then qceil x else qfloor x in
  if (Z.leb (- 2 ^ 63) t && Z.ltb t (2 ^ 63))%bool then t else - 2 ^ 63.

(** precision_derivation.py:31-32 *)
Definition all_int (arr : list Qc) (f : Z) : bool :=
  forallb (fun x => let v := (x * pow2 f)%Qc in qeqb (qz (astype_int64 v)) v) arr.

(** The loop of lines 27-35; [fuel] bounds the number of rounds (6 suffice, as
    hf - lf starts at 64 and halves). *)
Fixpoint bisect (fuel : nat) (arr : list Qc) (lf hf : Z) : Z :=
  match fuel with
  | O => hf
  | S fuel' =>
    if Z.leb (hf - lf) 1 then hf
    else let f := (lf + hf) / 2 in
         if all_int arr f then bisect fuel' arr lf f else bisect fuel' arr f hf
  end.

(** floor(1 + log2 x) and ceil(log2 x) of a non-negative number, -inf at 0. (lines 39-45) *)
Definition up_pos (x : Qc) : zext := if qeqb x (qz 0) then ZNegInf else ZFin (1 + flog2 x).
Definition up_neg (x : Qc) : zext := if qeqb x (qz 0) then ZNegInf else ZFin (clog2 x).
Definition zmaxs (l : list zext) : zext := fold_left zext_max l ZNegInf.

(** get_arr_container, precision_derivation.py:20-48.  [int] of -inf (which
    cannot occur) is 0 here. *)
Definition get_arr_container (arr : list Qc) : kif :=
  if forallb (fun x => qeqb x (qz 0)) arr then (0, 1, 0)
  else
    let f := bisect 64 arr (-32) 32 in
    let neg := filter (fun x => qltb x (qz 0)) arr in
    let pos := filter (fun x => negb (qltb x (qz 0))) arr in
    let i1 := zmaxs (map (fun x => up_pos (x * pow2 f)%Qc) pos) in
    let i2 := zmaxs (map (fun x => up_neg (- x * pow2 f)%Qc) neg) in
    let i := match zext_max i1 i2 with ZFin z => z | ZNegInf => 0 end in
    (if match neg with [] => true | _ => false end then 0 else 1, i - f, f).

(** ** Activations *)

(** 2.**e in float64: it underflows to 0. (lines 42-44, 59) *)
Definition fpow2 (e : Z) : Qc := if Z.ltb e (-1074) then qz 0 else pow2 e.

(** np.linspace(a, b, n), n >= 2. (line 59) *)
Definition linspace (a b : Qc) (n : Z) : list Qc :=
  map (fun j => (a + qz (Z.of_nat j) * ((b - a) / qz (n - 1)))%Qc) (seq 0 (Z.to_nat n)).

(** activation_kif_forward, precision_derivation.py:51-62, for an element-wise
    function; the cast of the outputs to float32 is not modelled.  When 2.**i
    overflows, the grid is NaN and int(nan) raises. *)
Definition activation_kif_forward (func : Qc -> Qc) (t : kif) : result kif :=
  let '(k, i, f) := t in
  let '(k, i, f) := if Z.leb (k + i + f) 0 then (0, 1, 0) else (k, i, f) in
  if Z.leb 1024 i then Raise
  else
    let N := Z.min (2 ^ (k + i + f)) (2 ^ 20) in
    Ok (get_arr_container (map func (linspace (- pow2 i * qz k)%Qc (pow2 i - fpow2 (- f))%Qc N))).

(** ** The layers of a proxy model *)

(** layer.activation of a keras Activation layer. (lines 109-118) *)
Inductive activ : Type := ASoftmax | ATanh | ASigmoid | ARelu | ALinear | AFun.

(** Layers as far as the dispatch of get_produced_kif and get_request_kif
    distinguishes them (precision_derivation.py:81-236, unary_lut.py:103). *)
Inductive pkind : Type :=
| NInput                                   (* InputLayer *)
| NFpq (q : nat)                           (* FixedPointQuantizer, its variables in the store *)
| NAct (a : activ) (func : Qc -> Qc)       (* Activation *)
| NActL (softmax : bool) (func : Qc -> Qc) (* ReLU, LeakyReLU (false), Softmax (true) *)
| NAvg (pool_size : list Z)                (* AvgPool1D/2D/3D *)
| NAdd | NSub | NDot | NConcat
| NKernel (kernel : list Qc) (div : Z) (bias : option (list Qc))  (* Dense, Conv: weights, units or filters, bias if use_bias *)
| NReshape                                 (* Reshape, Flatten *)
| NSelect                                  (* MaxPool1D/2D/3D, Permute *)
| NLut (kif_out : kif)                     (* UnaryLUT *)
| NUnknown.

(** A network: layers in a topological order with the positions of their
    inbound layers. (lines 65-74, 193-203) *)
Definition pnet : Type := list (pkind * list nat).
(** The quantizers' variables. (lines 101-103) *)
Definition pst : Type := list (fpq unit).

Definition kif_max (a b : kif) : kif :=
  let '(k1, i1, f1) := a in let '(k2, i2, f2) := b in (Z.max k1 k2, Z.max i1 i2, Z.max f1 f2).
(** np.max(kifs, axis=0); raises on an empty list. (lines 117, 134, 155, 202, 218) *)
Definition kifs_max (l : list kif) : result kif :=
  match l with [] => Raise | a :: l' => Ok (fold_left kif_max l' a) end.

Fixpoint upd {A} (l : list A) (n : nat) (a : A) : list A :=
  match l, n with
  | [], _ => []
  | _ :: l', O => a :: l'
  | b :: l', S n' => b :: upd l' n' a
  end.

(** The assignments of lines 101-103. *)
Definition reduce_elem (t : kif) (c : qcfg) : qcfg :=
  let '(k, i, f) := t in mkCfg (Z.min (kn c) k) (Z.min (bits c) (k + i + f)) (Z.min (ints c) (k + i)).
Definition reduce_fpq (t : kif) (q : fpq unit) : fpq unit :=
  mkFPQ (tmap (reduce_elem t) (cfgs q)) (rnd_name q) (sat_name q) (overrides q).

(** get_produced_kif of a FixedPointQuantizer given its input's precision,
    lines 92-105: the precision and the quantizer afterwards. *)
Definition fpq_produced (input : kif) (q : fpq unit) : kif * fpq unit :=
  let '(ik, ii, jf) := input in
  let '(ok, oi, of) := result_t_kif q in
  let k := Z.min ik ok in
  let i := Z.min ii oi in
  let f := Z.min jf of in
  let i := if (Z.leb ii oi && Z.ltb f jf)%bool then i + 1 else i in
  ((k, i, f),
   if (negb (Z.eqb k ok) || negb (Z.eqb i oi) || negb (Z.eqb f of))%bool then reduce_fpq (k, i, f) q else q).

(** lines 159-174 *)
Definition kernel_produced (input : kif) (kernel : list Qc) (div : Z) (bias : option (list Qc)) : kif :=
  let '(k, i, f) := input in
  let '(wk, wi, wf) := get_arr_container kernel in
  let neg_bias := match bias with None => false | Some b => existsb (fun x => qltb x (qz 0)) b end in
  let k := if (negb (Z.eqb k 0) || negb (Z.eqb wk 0) || neg_bias)%bool then 1 else 0 in
  let multiplicity := (qz (Z.of_nat (List.length kernel)) / qz div)%Qc in
  (k, i + wi + clog2 multiplicity, f + wf).

(** get_produced_kif (lines 81-187) and get_input_kifs (65-74); [fuel] bounds
    the recursion, whose depth is at most the position of the layer. *)
Fixpoint produced (fuel : nat) (net : pnet) (n : nat) (s : pst) : result (kif * pst) :=
  match fuel with
  | O => Raise
  | S fuel' =>
    match nth_error net n with
    | None => Raise
    | Some (kd, ps) =>
      let fix inputs ps s : result (list kif * pst) :=
        match ps with
        | [] => Ok ([], s)
        | p :: ps' =>
          rbind (produced fuel' net p s) (fun r =>
          rbind (inputs ps' (snd r)) (fun r' => Ok (fst r :: fst r', snd r')))
        end in
      let one (g : kif -> pst -> result (kif * pst)) :=
        rbind (inputs ps s) (fun r => match fst r with [t] => g t (snd r) | _ => Raise end) in
      match kd with
      | NInput => Ok ((1, 65535, 65535), s)
      | NFpq q =>
        one (fun t s => match nth_error s q with
                        | None => Raise
                        | Some o => let '(r, o') := fpq_produced t o in Ok (r, upd s q o')
                        end)
      | NAct ASoftmax _ | NActL true _ => one (fun _ s => Ok ((0, 1, 65535), s))
      | NAct _ func | NActL false func => one (fun t s => rbind (activation_kif_forward func t) (fun r => Ok (r, s)))
      | NAvg pool => one (fun t s => let '(k, i, f) := t in Ok ((k, i, f + clog2 (qz (fold_left Z.mul pool 1))), s))
      | NAdd | NSub =>
        rbind (inputs ps s) (fun r => rbind (kifs_max (fst r)) (fun t =>
          let '(k, i, f) := t in Ok ((k, i + clog2 (qz (Z.of_nat (List.length (fst r)))), f), snd r)))
      | NDot =>
        rbind (inputs ps s) (fun r =>
          match fst r with
          | [(k1, i1, f1); (k2, i2, f2)] => Ok ((Z.max k1 k2, i1 + i2, f1 + f2), snd r)
          | _ => Raise
          end)
      | NConcat => rbind (inputs ps s) (fun r => rbind (kifs_max (fst r)) (fun t => Ok (t, snd r)))
      | NKernel kernel div bias => one (fun t s => Ok (kernel_produced t kernel div bias, s))
      | NReshape | NSelect => one (fun t s => Ok (t, s))
      | NLut t => Ok (t, s)
      | NUnknown => Ok ((1, 65535, 65535), s)
      end
    end
  end.

(** get_input_kifs, lines 65-74. *)
Fixpoint input_kifs (fuel : nat) (net : pnet) (ps : list nat) (s : pst) : result (list kif * pst) :=
  match ps with
  | [] => Ok ([], s)
  | p :: ps' =>
    rbind (produced fuel net p s) (fun r =>
    rbind (input_kifs fuel net ps' (snd r)) (fun r' => Ok (fst r :: fst r', snd r')))
  end.

(** [node.outbound_layer for node in layer._outbound_nodes] (lines 195, 214) *)
Definition out_layers (net : pnet) (n : nat) : list nat :=
  filter (fun m => match nth_error net m with Some (_, ps) => existsb (Nat.eqb n) ps | None => false end) (seq 0 (List.length net)).

(** Requested precision of a quantizer, lines 223-236 (mode names in upper case). *)
Definition fpq_request (q : fpq unit) : kif :=
  let '(k, i, f) := result_t_kif q in
  let f := if String.eqb (rnd_name q) "TRN" then f else if String.eqb (rnd_name q) "RND" then f + 1 else f + 2 in
  let i := if (String.eqb (sat_name q) "WRAP" || String.eqb (sat_name q) "WRAP_SM")%bool then i else 65535 in
  (k, i, f).

(** get_request_kif, lines 210-236. *)
Fixpoint request (fuel : nat) (net : pnet) (n : nat) (s : pst) : result kif :=
  match fuel with
  | O => Raise
  | S fuel' =>
    match nth_error net n with
    | None => Raise
    | Some (NFpq q, _) => match nth_error s q with None => Raise | Some o => Ok (fpq_request o) end
    | Some (NConcat, _) | Some (NReshape, _) =>
      match out_layers net n with
      | [] => Ok (1, 65535, 65535)
      | ls => rbind (fold_right (fun m acc => rbind (request fuel' net m s) (fun t => rbind acc (fun l => Ok (t :: l)))) (Ok []) ls) kifs_max
      end
    | Some _ => Ok (1, 65535, 65535)
    end
  end.

(** get_requested_kif, lines 193-203. *)
Definition requested (fuel : nat) (net : pnet) (n : nat) (s : pst) : result kif :=
  match out_layers net n with
  | [] => Ok (1, 65535, 65535)
  | ls => rbind (fold_right (fun m acc => rbind (request fuel net m s) (fun t => rbind acc (fun l => Ok (t :: l)))) (Ok []) ls) kifs_max
  end.

(** merge_precision, lines 242-252. *)
Definition merge_precision (available req : kif) : kif :=
  let '(k0, i0, f0) := available in
  let '(k1, i1, f1) := req in
  let k := k0 in
  let i := Z.min i0 i1 in
  let f := Z.min f0 f1 in
  let i := if (Z.ltb f1 f0 && Z.leb i0 i1)%bool then i + 1 else i in
  (k, i, f).

(** A result type: precision, rounding, overflow. (lines 255-256) *)
Definition kifRS : Type := kif * string * string.

(** result_kifRS_layer_with_fusible_quantizer, lines 255-268. *)
Definition fusible_result (net : pnet) (n : nat) (s : pst) : result (option kifRS) :=
  match out_layers net n with
  | [m] =>
    match nth_error net m with
    | Some (NFpq q, ps) =>
      match nth_error s q with
      | None => Raise
      | Some o =>
        rbind (fusible o 1 (negb (Nat.eqb (List.length ps) 1)) (List.length (out_layers net (hd O ps)))) (fun fu =>
          Ok (if fu then Some (result_t_kif o, rnd_name o, sat_name o) else None))
      end
    | _ => Ok None
    end
  | _ => Ok None
  end.

(** derive_result_kifRS_from_next_quantizers, lines 271-286. *)
Definition derived_result (net : pnet) (n : nat) (s : pst) : result kifRS :=
  let q_of m := match nth_error net m with Some (NFpq q, _) => nth_error s q | _ => None end in
  let qs := map q_of (out_layers net n) in
  if negb (forallb (fun o => match o with Some _ => true | None => false end) qs) then Raise
  else
    let qs := concat (map (fun o => match o with Some q => [q] | None => [] end) qs) in
    match qs with
    | [] => Raise
    | q0 :: _ =>
      if negb (forallb (fun q => String.eqb (sat_name q) (sat_name q0)) qs) then Raise
      else
        let guard (q : fpq unit) := 2 * (if String.eqb (rnd_name q) "TRN" then 0 else 1) - (if String.eqb (rnd_name q) "RND" then 1 else 0) in
        rbind (kifs_max (map (fun q => let '(k, i, f) := result_t_kif q in (k, i, f + guard q)) qs)) (fun t =>
          Ok (t, "TRN"%string, sat_name q0))
    end.

(** get_result_kifRS, lines 289-302 (STREAM = False). *)
Definition result_kifRS (fuel : nat) (net : pnet) (n : nat) (s : pst) : result (kifRS * pst) :=
  rbind (fusible_result net n s) (fun r =>
    match r with
    | Some t => Ok (t, s)
    | None =>
      match nth_error net n with
      | None => Raise
      | Some (NInput, _) => rbind (derived_result net n s) (fun t => Ok (t, s))
      | Some _ =>
        rbind (produced fuel net n s) (fun p =>
        rbind (requested fuel net n (snd p)) (fun q =>
          Ok ((merge_precision (fst p) q, "TRN"%string, "WRAP"%string), snd p)))
      end
    end).

(** A configuration: the type strings, and the table size if there is one. (lines 350-361) *)
Definition conf : Type := list (string * string) * option Z.

(** get_config_wight_accum_result_bias, lines 305-327. *)
Definition config_kernel (fuel : nat) (net : pnet) (n : nat) (s : pst) (kernel : list Qc) (offset : option Z) : result (conf * pst) :=
  rbind (result_kifRS fuel net n s) (fun r =>
  let '((r_k, r_i, r_f), RND, SAT, s) := (fst (fst (fst r)), snd (fst (fst r)), snd (fst r), snd r) in
  rbind (produced fuel net n s) (fun p =>
  let '((p_k, p_i, p_f), s) := p in
  let weight_t := tuple_to_apf (get_arr_container kernel) "TRN" "WARP" true in
  let result_t := tuple_to_apf (r_k, r_i, r_f) RND SAT true in
  let a_f := match offset with None => p_f | Some d => Z.min (r_f + d) p_f end in
  let accum_t :=
    if String.eqb SAT "WRAP" then tuple_to_apf (r_k, r_i, a_f) "TRN" "WARP" true
    else
      let f := match offset with None => a_f | Some d => Z.min (d + r_f) a_f end in
      tuple_to_apf (p_k, p_i, f) "TRN" "WARP" true in
  Ok (([("weight_t", weight_t); ("accum_t", accum_t); ("result_t", result_t); ("bias_t", accum_t)]%string, None), s))).

(** get_config_table_tablesize_result, lines 330-347; int64 overflow of the
    table size is not modelled. *)
Definition config_table (fuel : nat) (net : pnet) (n : nat) (s : pst) (a : activ) (ps : list nat) : result (conf * pst) :=
  rbind (result_kifRS fuel net n s) (fun r =>
  let '(t, RND, SAT, s) := (fst (fst (fst r)), snd (fst (fst r)), snd (fst r), snd r) in
  let table_t := tuple_to_apf t RND SAT true in
  let result_t := match a with ATanh | ASigmoid => tuple_to_apf t "TRN" "WRAP" true | _ => table_t end in
  rbind (input_kifs fuel net ps s) (fun p =>
  rbind (kifs_max (fst p)) (fun m =>
  let '(i_k, i_i, i_f) := m in
  if Z.ltb (i_k + i_i + i_f) 0 then Raise
  else
    let table_size :=
      match a with
      | ATanh => qfloor (qz 8 * pow2 i_f)%Qc
      | ASigmoid => qfloor (qz 16 * pow2 i_f)%Qc
      | _ => 2 ^ (i_k + i_i + i_f)
      end in
    Ok (([("table_t", table_t); ("result_t", result_t)]%string, Some table_size), snd p)))).

(** The width check of lines 363-370. *)
Definition check_types (types : list (string * string)) : result unit :=
  fold_right (fun v acc => rbind (apf_to_tuple (snd v)) (fun t => let '(_, i, f) := t in if Z.ltb 64 (i + f) then Raise else acc)) (Ok tt) types.

(** get_config, lines 350-371. *)
Definition layer_config (fuel : nat) (net : pnet) (n : nat) (s : pst) (offset : option Z) : result (conf * pst) :=
  rbind
    (match nth_error net n with
     | None => Raise
     | Some (NKernel kernel _ _, _) => config_kernel fuel net n s kernel offset
     | Some (NAct a _, ps) => config_table fuel net n s a ps
     | Some _ =>
       rbind (result_kifRS fuel net n s) (fun r =>
         Ok (([("result_t"%string, tuple_to_apf (fst (fst (fst r))) (snd (fst (fst r))) (snd (fst r)) true)], None), snd r))
     end)
    (fun c => rbind (check_types (fst (fst c))) (fun _ => Ok c)).
