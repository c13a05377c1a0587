(** Saving and loading HGQ layers: constructor arguments, get_config / from_config and the stored weights
    (src/HGQ/layers/base.py:44-143, 248-255; dense.py:11-46, 82-93, 99-157; conv.py:13-72, 137-142, 258-338;
    misc.py:13-70; batchnorm_base.py:11-94), and the one-off adaptation of kernel bitwidths of
    HDenseBatchNorm (batchnorm_base.py:112-126, dense.py:161-163).  HBatchNormalization is not modelled here.

    Saving stores get_config() and the values of layer.weights; loading calls the constructor with the
    configuration, builds the layer and assigns the values in order (keras).  The part of the configuration that
    belongs to the keras base class (units, strides, use_bias, activation, name, ...) is restored by keras, and
    keras is taken to give back the dictionaries kq_conf and paq_conf with the values they were stored with.
    beta is an attribute here: whether or not keras also lists its variable among the weights, it gets the
    stored value from the configuration. *)
From Coq Require Import ZArith QArith Qcanon List Bool String.
From Verif Require Import Base.Num Base.Tensor Model.Quantizer Model.Layers Model.Conf Model.BatchNorm.
Import ListNotations.
Local Open Scope Z_scope.

(** The classes: dense.py:10, 97; conv.py:12, 257 (with their 1D / 2D subclasses); misc.py:14, 31, 62. *)
Inductive cls : Type := HDense | HConv | HDenseBN | HConvBN | HActivation | HAdd | HQuantize.
Definition has_kernel (c : cls) : bool := match c with HDense | HConv | HDenseBN | HConvBN => true | _ => false end.
Definition is_conv (c : cls) : bool := match c with HConv | HConvBN => true | _ => false end.
Definition is_bn (c : cls) : bool := match c with HDenseBN | HConvBN => true | _ => false end.
(** _delayed_kernel_bits_adaption, base.py:56 and dense.py:157 (the convolutions do not set it). *)
Definition delayed (c : cls) : bool := match c with HDenseBN => true | _ => false end.

(** Values of a layer configuration. (base.py:248-255) *)
Inductive cval : Type := CNum (q : Qc) | CInt (z : Z) | CBool (b : bool) | CConf (d : dict) | CStr (s : string) | CNone.
Definition config : Type := list (string * cval).
Definition cfind (c : config) (key : string) : option cval :=
  match find (fun e => String.eqb (fst e) key) c with Some e => Some (snd e) | None => None end.

(** The attributes set by the constructors; [a_pf] is parallel_factor, [a_adapt] _do_adapt_kernel_bits.
    (base.py:44-66, batchnorm_base.py:29-47) *)
Record args : Type := mkA {
  a_cls : cls; a_keras : config; a_kq : dict; a_paq : dict; a_beta : Qc; a_pf : option Z;
  a_mom : Qc; a_eps : Qc; a_center : bool; a_scale : bool; a_adapt : bool }.

(** Arguments of the HGQ classes that keras does not know (base.py:44-55, dense.py:26, conv.py:38,
    batchnorm_base.py:13-17). *)
Definition own_keys (c : cls) : list string :=
  (["kq_conf"%string; "paq_conf"%string; "beta"%string; "do_adapt_kernel_bits"%string]
   ++ (if has_kernel c then ["parallel_factor"%string] else [])
   ++ (if is_bn c then ["momentum"%string; "epsilon"%string; "center"%string; "scale"%string] else []))%list.
Definition all_own_keys : list string :=
  ["kq_conf"; "paq_conf"; "beta"; "do_adapt_kernel_bits"; "parallel_factor"; "momentum"; "epsilon"; "center"; "scale"]%string.

(** kq_conf or get_default_kq_conf(), base.py:47, 49 *)
Definition conf_arg (v : option cval) (default : dict) : result dict :=
  match v with
  | None | Some CNone | Some (CConf []) => Ok default
  | Some (CConf d) => Ok d
  | _ => Raise
  end.
Definition num_arg (v : option cval) (default : Qc) : result Qc :=
  match v with None => Ok default | Some (CNum q) => Ok q | _ => Raise end.
Definition bool_arg (v : option cval) (default : bool) : result bool :=
  match v with None => Ok default | Some (CBool b) => Ok b | _ => Raise end.
(** parallel_factor: default None (dense.py:26) or 1 (conv.py:38; tf.constant(None) of line 71 raises) *)
Definition pf_arg (c : cls) (v : option cval) : result (option Z) :=
  match v with
  | None => Ok (if is_conv c then Some 1 else None)
  | Some (CInt z) => Ok (Some z)
  | Some CNone => if is_conv c then Raise else Ok None
  | _ => Raise
  end.

(** The constructor: cls( **config ).  What HGQ does not take goes to keras, which rejects the
    arguments it does not know. (base.py:44-66) *)
Definition construct (defaults : dict * dict) (c : cls) (cfg : config) : result args :=
  let rest := filter (fun e => negb (existsb (String.eqb (fst e)) (own_keys c))) cfg in
  if existsb (fun e => existsb (String.eqb (fst e)) all_own_keys) rest then Raise
  else
  rbind (conf_arg (cfind cfg "kq_conf") (fst defaults)) (fun kq =>
  rbind (conf_arg (cfind cfg "paq_conf") (snd defaults)) (fun paq =>
  rbind (num_arg (cfind cfg "beta") (qz 0)) (fun beta =>
  rbind (if has_kernel c then pf_arg c (cfind cfg "parallel_factor") else Ok None) (fun pf =>
  rbind (if is_bn c then num_arg (cfind cfg "momentum") (Q2Qc (99 # 100)) else Ok (Q2Qc (99 # 100))) (fun mom =>
  rbind (if is_bn c then num_arg (cfind cfg "epsilon") (Q2Qc (1 # 1000)) else Ok (Q2Qc (1 # 1000))) (fun eps =>
  rbind (if is_bn c then bool_arg (cfind cfg "center") true else Ok true) (fun center =>
  rbind (if is_bn c then bool_arg (cfind cfg "scale") true else Ok true) (fun scale =>
  rbind (bool_arg (cfind cfg "do_adapt_kernel_bits") true) (fun adapt =>
  Ok (mkA c rest kq paq beta pf mom eps center scale adapt)))))))))).

(** A quantizer as built by init_quantizers: skip_dims, rounding strategy and shape of the bitwidths.
    (base.py:110-143, quantizer.py:61-102) *)
Record qinfo : Type := mkI { i_skip : option (list Z); i_strategy : Z; i_shape : list nat }.
Definition skip_arg (v : pval) : result skip_spec :=
  match v with VStr s => Ok (SkipStr s) | VInts d => Ok (SkipDims d) | VNone => Ok SkipNone | _ => Raise end.
Definition strategy_num (v : pval) : result Z := match v with VInt z => Ok z | _ => Raise end.
(** base.py:113-120, 131-139 *)
Definition build_info (conf : dict) (shape : list (option nat)) : result qinfo :=
  rbind (from_config conf) (fun ss =>
  rbind (strategy_num (fst ss)) (fun st =>
  rbind (skip_arg (snd ss)) (fun sp =>
  rbind (compute_bw_shape_and_degeneracy sp shape) (fun r =>
  rbind (known (snd (fst r))) (fun s => Ok (mkI (fst (fst r)) st s)))))).

(** What keras determines from its arguments and the input shape. (base.py:115, 131) *)
Record geometry : Type := mkG {
  g_kernel : list nat; g_bias : option (list nat); g_out : list nat; g_taps : taps; g_fn : list (list Qc) -> list Qc;
  g_relu : bool; g_loc : Z; g_bias_loc : Z; g_chan : nat }.

(** A built layer: attributes, input shape, quantizers, weights by name and the two registers.
    (base.py:93-143, batchnorm_base.py:49-94) *)
Record obj : Type := mkO {
  o_args : args; o_in : list nat; o_ki : option qinfo; o_pi : qinfo; o_w : list (string * tensor Qc);
  o_min : tensor ext; o_max : tensor ext }.

Definition weight (o : obj) (name : string) : tensor Qc :=
  match find (fun e => String.eqb (fst e) name) (o_w o) with Some e => snd e | None => mkT [] [] end.

Section S.
  (** Keras, and the meaning of exact_q_value and bw_clip in a configuration. *)
  Variable geo_of : cls -> config -> list nat -> geometry.
  Variable exact_of : dict -> bool.
  Variable clip_of : dict -> option (Qc * Qc).

  (** HActivation.post_build, misc.py:36-37 *)
  Definition rewrite_conf (c : cls) (paq : dict) : result dict :=
    match c with
    | HActivation => match dget paq "rnd_strategy" with
                     | None => Raise
                     | Some v => Ok (if is_auto v then dset paq "rnd_strategy" (VStr "standard_round") else paq)
                     end
    | _ => Ok paq
    end.

  (** Names and shapes of the weights, in a fixed order (base.py:116-122, 133-139, 108;
      batchnorm_base.py:63-94: the constants of lines 78 and 94 are variables too). *)
  Definition weight_shapes (a : args) (g : geometry) (ki : option qinfo) (pi : qinfo) : list (string * list nat) :=
    (match ki with Some i => [("kernel"%string, g_kernel g); ("kernel_bw"%string, i_shape i)] | None => [] end
     ++ match g_bias g with Some s => [("bias"%string, s)] | None => [] end
     ++ [("activation_bw"%string, i_shape pi); ("bops"%string, [])]
     ++ (if is_bn (a_cls a)
         then (if a_center a then [("bn_beta"%string, [g_chan g]); ("moving_mean"%string, [g_chan g])] else [("Variable"%string, [])])
              ++ (if a_scale a then [("bn_gamma"%string, [g_chan g]); ("moving_variance"%string, [g_chan g])] else [("Variable"%string, [])])
         else []))%list.

  (** build and post_build: base.py:68-70, 93-108, 110-143; dense.py:82-86; batchnorm_base.py:49-94.
      [init] are the initial values of the weights (random kernels, constants, bitwidths after the
      adaptation of base.py:125-127). *)
  Definition build (init : string -> list nat -> list Qc) (a : args) (ishape : list nat) : result obj :=
    let c := a_cls a in
    let g := geo_of c (a_keras a) ishape in
    rbind (rewrite_conf c (a_paq a)) (fun paq =>
    rbind (if has_kernel c then rbind (build_info (a_kq a) (map Some (g_kernel g))) (fun i => Ok (Some i)) else Ok None) (fun ki =>
    rbind (build_info paq (None :: map Some (g_out g))) (fun pi =>
    match dget paq "rnd_strategy" with
    | None => Raise
    | Some v =>
      let pi := if is_auto v
                then mkI (i_skip pi) (if covers (g_bias g) (i_shape pi) (g_loc g) then 0 else 3) (i_shape pi) else pi in
      let pf := match c, a_pf a with
                | (HDense | HDenseBN), None =>
                    if Nat.ltb 1 (List.length ishape) then Some (Z.of_nat (prodn (removelast ishape))) else None
                | _, pf => pf
                end in
      let center := (a_center a && match g_bias g with Some _ => true | None => false end)%bool in
      let a := mkA c (a_keras a) (a_kq a) paq (a_beta a) pf (a_mom a) (a_eps a) center (a_scale a)
                   (if has_kernel c then (a_adapt a && delayed c)%bool else a_adapt a) in
      let ws := map (fun e => (fst e, mkT (snd e) (init (fst e) (snd e)))) (weight_shapes a g ki pi) in
      Ok (mkO a ishape ki pi ws (mkT (i_shape pi) (map (fun _ => PosInf) (seq 0 (prodn (i_shape pi)))))
                                (mkT (i_shape pi) (map (fun _ => NegInf) (seq 0 (prodn (i_shape pi))))))
    end))).

  (** get_config: base.py:248-255, dense.py:88-93, conv.py:137-142.  HBatchNormBase has none of its own. *)
  Definition get_config (o : obj) : config :=
    let a := o_args o in
    (a_keras a ++ [("kq_conf"%string, CConf (a_kq a)); ("paq_conf"%string, CConf (a_paq a)); ("beta"%string, CNum (a_beta a))]
     ++ (if has_kernel (a_cls a) then [("parallel_factor"%string, match a_pf a with Some z => CInt z | None => CNone end)] else []))%list.

  (** Assigning stored values to the weights, in order.
    (what keras does with the variables of base.py:110-143) *)
  Fixpoint set_weights (ws : list (string * tensor Qc)) (vs : list (tensor Qc)) : result (list (string * tensor Qc)) :=
    match ws, vs with
    | [], [] => Ok []
    | (n, w) :: ws', v :: vs' =>
        if list_eq_dec Nat.eq_dec (shape w) (shape v) then rbind (set_weights ws' vs') (fun r => Ok ((n, v) :: r)) else Raise
    | _, _ => Raise
    end.
  Definition with_weights (o : obj) (ws : list (string * tensor Qc)) : obj :=
    mkO (o_args o) (o_in o) (o_ki o) (o_pi o) ws (o_min o) (o_max o).

  (** What is stored, and loading it. (base.py:248-255) *)
  Definition save (o : obj) : cls * config * list nat * list (tensor Qc) :=
    (a_cls (o_args o), get_config o, o_in o, map snd (o_w o)).
  Definition load (defaults : dict * dict) (init : string -> list nat -> list Qc) (f : cls * config * list nat * list (tensor Qc)) : result obj :=
    let '(c, cfg, ishape, vs) := f in
    rbind (construct defaults c cfg) (fun a =>
    rbind (build init a ishape) (fun o =>
    rbind (set_weights (o_w o) vs) (fun ws => Ok (with_weights o ws)))).

  (** ** What the layer computes (base.py:110-143, 202-213) *)
  Variable rsqrt : Qc -> Qc.

  Definition paq_of (o : obj) : hgq :=
    mkH (weight o "activation_bw") (o_min o) (o_max o) (i_skip (o_pi o)) (i_strategy (o_pi o))
        (exact_of (a_paq (o_args o))) (clip_of (a_paq (o_args o))).
  Definition kq_of (o : obj) (i : qinfo) : hgq :=
    mkH (weight o "kernel_bw") (mkT [] []) (mkT [] []) (i_skip i) (i_strategy i) (exact_of (a_kq (o_args o))) (clip_of (a_kq (o_args o))).
  Definition geo (o : obj) : geometry := geo_of (a_cls (o_args o)) (a_keras (o_args o)) (o_in o).
  Definition bias_of (o : obj) : option (tensor Qc) := option_map (fun _ => weight o "bias") (g_bias (geo o)).
  Definition bn_of (o : obj) (i : qinfo) : bnlayer :=
    let a := o_args o in let g := geo o in
    mkB (g_taps g) (weight o "kernel") (kq_of o i) (bias_of o) (g_bias_loc g) (a_center a) (a_scale a)
        (data (weight o "bn_gamma")) (data (weight o "bn_beta")) (data (weight o "moving_mean")) (data (weight o "moving_variance"))
        (a_eps a) (a_mom a) (paq_of o) (g_relu g) (g_loc g) (g_out g).
  (** The layer of Model/Layers.v (batch-norm layers with their fused kernel and bias).
    (base.py:110-143, batchnorm_base.py:96-110) *)
  Definition layer_of (o : obj) : hlayer :=
    let g := geo o in
    match o_ki o with
    | None => mkL (Fn (g_fn g)) (paq_of o) (g_relu g) (g_loc g) (g_out g)
    | Some i => if is_bn (a_cls (o_args o)) then bn_hlayer rsqrt (bn_of o i)
                else mkL (Linear (g_taps g) (weight o "kernel") (kq_of o i) (bias_of o) (g_bias_loc g)) (paq_of o) (g_relu g) (g_loc g) (g_out g)
    end.

  (** ** Training HDenseBatchNorm *)
  Section Train.
    Variable pw : Qc -> Qc.
    Variable ln2 : Qc.
    Variable lg : Qc -> Qc.

    (** adapt_fused_bn_kernel_bw_bits, batchnorm_base.py:112-126: bitwidths of the kernel afterwards. *)
    Definition adapt_fused_bn (b : bnlayer) (xs : list (list (list Qc))) : result (tensor ext) :=
      if negb (b_scale b) then adapt_bw_bits lg (q_skip (b_kq b)) (q_fbw (b_kq b)) (b_kernel b)
      else
      let wide := mkB (b_ts b) (b_kernel b) (with_fbw (b_kq b) (tmap (fun _ => qz 32) (q_fbw (b_kq b)))) (b_bias b) (b_bias_loc b)
                      (b_center b) (b_scale b) (b_gamma b) (b_beta b) (b_mean b) (b_var b) (b_eps b) (b_momentum b) (b_paq b) (b_relu b) (b_loc b) (b_out b) in
      rbind (hforward pw ln2 (bn_hlayer rsqrt wide) xs false false (fun _ => qz 0) (fun _ => qz 0) (fun _ => qz 0)) (fun z =>
      let var c := var_list (chan_vals (b_loc b) (b_out b) (fst z) c) in
      let scale c := (gamma_of b c * rsqrt (var c + b_eps b))%Qc in
      adapt_bw_bits lg (q_skip (b_kq b)) (q_fbw (b_kq b)) (scale_kernel (b_kernel b) scale)).

    (** The clip at the next call of the quantizer makes the bitwidths finite (quantizer.py:141-142). *)
    Definition clipped (clip : option (Qc * Qc)) (t : tensor ext) : result (tensor Qc) :=
      match clip with
      | Some (lo, hi) => Ok (tmap (fun e => clip_ext e lo hi) t)
      | None => if forallb (fun e => match e with Fin _ => true | _ => false end) (data t) then Ok (tmap (fin (qz 0)) t) else Raise
      end.

    Definition put (ws : list (string * tensor Qc)) (name : string) (v : tensor Qc) : list (string * tensor Qc) :=
      map (fun e => if String.eqb (fst e) name then (fst e, v) else e) ws.

    (** The first lines of HDenseBatchNorm.forward in training, dense.py:161-163: the layer afterwards.
        (The values computed and the moving statistics are those of [bn_train].) *)
    Definition first_training_call (o : obj) (i : qinfo) (xs : list (list (list Qc))) : result obj :=
      let a := o_args o in
      if (a_adapt a && delayed (a_cls a))%bool then
        rbind (adapt_fused_bn (bn_of o i) xs) (fun t =>
        rbind (clipped (clip_of (a_kq a)) t) (fun f =>
        Ok (mkO (mkA (a_cls a) (a_keras a) (a_kq a) (a_paq a) (a_beta a) (a_pf a) (a_mom a) (a_eps a) (a_center a) (a_scale a) false)
                (o_in o) (o_ki o) (o_pi o) (put (o_w o) "kernel_bw" f) (o_min o) (o_max o))))
      else Ok o.
  End Train.
End S.
