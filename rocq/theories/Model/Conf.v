(** Model of the quantizer configurations: default dictionaries
    (src/HGQ/utils/utils.py:21-75), their use by the layers
    (src/HGQ/layers/base.py:44-50, 93-143; src/HGQ/layers/misc.py:35-51) and the
    shapes of bitwidth variables (src/HGQ/quantizer/quantizer.py:61-106).
    Dictionaries and regularizers are objects with identity. *)
From Coq Require Import ZArith Qcanon List Bool String.
From Verif Require Import Base.Num Base.Tensor Model.Quantizer.
Import ListNotations.
Open Scope Z_scope.

(** Values stored in a configuration. [VReg r] is a reference to regularizer r
    (utils.py:8-18); [VOther n] stands for any other immutable value. *)
Inductive pval : Type := VNone | VInt (z : Z) | VStr (s : string) | VInts (l : list Z) | VReg (r : nat) | VOther (n : nat).

(** A Python dict: keys in insertion order. (utils.py:21-43) *)
Definition dict : Type := list (string * pval).
(** d.get(key) (used at base.py:58) *)
Fixpoint dget (d : dict) (key : string) : option pval :=
  match d with
  | [] => None
  | (k, v) :: d' => if String.eqb k key then Some v else dget d' key
  end.
(** d[key] = value (used at misc.py:37) *)
Fixpoint dset (d : dict) (key : string) (v : pval) : dict :=
  match d with
  | [] => [(key, v)]
  | (k, w) :: d' => if String.eqb k key then (k, v) :: d' else (k, w) :: dset d' key v
  end.
(** del d[key] (user code; cf. utils.py:46-67) *)
Definition ddel (d : dict) (key : string) : dict := filter (fun e => negb (String.eqb (fst e) key)) d.
(** set(a.keys()) == set(b.keys()) (utils.py:57, 65) *)
Definition same_keys (a b : dict) : bool :=
  (forallb (fun e => existsb (fun e' => String.eqb (fst e) (fst e')) b) a && forallb (fun e => existsb (fun e' => String.eqb (fst e) (fst e')) a) b)%bool.

(** DEFAULT_KERNEL_QUANTIZER_CONFIG, utils.py:21-30; regularizer object 0.
    VOther 0 is True, VOther 1 is (-23, 23). *)
Definition default_kq : dict :=
  [("init_bw", VInt 2); ("skip_dims", VNone); ("rnd_strategy", VStr "standard_round"); ("exact_q_value", VOther 0);
   ("dtype", VNone); ("bw_clip", VOther 1); ("trainable", VOther 0); ("regularizer", VReg 0)]%string.
(** DEFAULT_PRE_ACTIVATION_QUANTIZER_CONFIG, utils.py:33-43; regularizer object 1. *)
Definition default_paq : dict :=
  [("init_bw", VInt 2); ("skip_dims", VInts [0]); ("rnd_strategy", VStr "standard_round"); ("exact_q_value", VOther 0);
   ("dtype", VNone); ("bw_clip", VOther 1); ("trainable", VOther 0); ("regularizer", VReg 1); ("minmax_record", VOther 0)]%string.

(** strategy_dict and HGQ.__init__, utils.py:70-75, quantizer.py:65. *)
Definition strategy_of (v : pval) : pval :=
  match v with
  | VStr s =>
      VInt (if String.eqb s "standard_round" then 0 else if String.eqb s "stochastic_round" then 1
            else if String.eqb s "fast_uniform_noise_injection" then 2 else if String.eqb s "floor" then 3 else -1)
  | _ => v
  end.

(** v == 'auto', base.py:105, misc.py:36. *)
Definition is_auto (v : pval) : bool := match v with VStr s => String.eqb s "auto" | _ => false end.

(** The parameters of HGQ.__init__, quantizer.py:61. *)
Definition hgq_params : list string :=
  ["init_bw"; "skip_dims"; "rnd_strategy"; "exact_q_value"; "dtype"; "bw_clip"; "trainable"; "regularizer"; "minmax_record"]%string.
(** HGQ.from_config, quantizer.py:283-285: cls( **config ); returns
    rnd_strategy and skip_dims of the quantizer. *)
Definition from_config (d : dict) : result (pval * pval) :=
  if negb (forallb (fun e => existsb (String.eqb (fst e)) hgq_params) d) then Raise
  else match dget d "init_bw", dget d "skip_dims" with
       | Some _, Some sd => Ok (strategy_of (match dget d "rnd_strategy" with Some v => v | None => VStr "floor" end), sd)
       | _, _ => Raise
       end.

(** _compute_bw_shape_and_degeneracy of the quantizer model for a skip_dims
    found in a configuration (quantizer.py:83-106); other values are rejected. *)
Definition bw_shape (sd : pval) (shape : list (option nat)) : result (list (option nat) * nat) :=
  let compute (s : skip_spec) := rbind (compute_bw_shape_and_degeneracy s shape) (fun r => Ok (snd (fst r), snd r)) in
  match sd with
  | VStr s => compute (SkipStr s)
  | VInts d => compute (SkipDims d)
  | VNone => compute SkipNone
  | _ => Raise
  end.

(** A layer: an HActivation or another one, the objects holding its
    configurations, kernel shape and bias shape (if any), output shape (batch
    dimension None), channel location, and, once built, the rounding strategies
    of its kernel and pre-activation quantizers. (base.py:44-66, 93-143) *)
Record clayer : Type := mkCL {
  c_act : bool; c_kq : nat; c_paq : nat; c_kernel : option (list nat); c_bias : option (list nat);
  c_outshape : list (option nat); c_loc : Z; c_kstrat : option pval; c_pstrat : option pval }.

(** can_bias_cover_rnd, base.py:72-87, on shapes. *)
Definition covers (bias : option (list nat)) (qs : list nat) (loc : Z) : bool :=
  match bias with
  | None => false
  | Some bs =>
      if negb (Nat.eqb (List.length bs) 1) then false
      else if Nat.eqb (prodn qs) 1 then true
      else if Z.eqb loc (-1)
           then (Nat.eqb (prodn (removelast qs)) 1 && if list_eq_dec Nat.eq_dec bs (skipn (List.length qs - 1) qs) then true else false)%bool
      else if Z.eqb loc 1
           then (Nat.eqb (prodn (tl qs)) 1 && if list_eq_dec Nat.eq_dec bs (firstn 1 qs) then true else false)%bool
      else false
  end.

(** The interpreter state: dict objects, regularizers (their l1), the two
    module variables and the layers. (utils.py:11-67) *)
Record cstate : Type := mkC { dicts : list dict; regs : list Qc; def_kq : nat; def_paq : nat; clayers : list clayer }.
Definition cinit : cstate := mkC [default_kq; default_paq] [Q2Qc (1 # 1000000); Q2Qc (1 # 1000000)] 0 1 [].

Inductive which : Type := KQ | PAQ.
Definition default_of (w : which) (st : cstate) : nat := match w with KQ => def_kq st | PAQ => def_paq st end.
Definition with_default (w : which) (a : nat) (st : cstate) : cstate :=
  match w with KQ => mkC (dicts st) (regs st) a (def_paq st) (clayers st) | PAQ => mkC (dicts st) (regs st) (def_kq st) a (clayers st) end.
Definition with_dicts (st : cstate) (ds : list dict) : cstate := mkC ds (regs st) (def_kq st) (def_paq st) (clayers st).
Definition with_layers (st : cstate) (ls : list clayer) : cstate := mkC (dicts st) (regs st) (def_kq st) (def_paq st) ls.

(** get_default_kq_conf / get_default_paq_conf, utils.py:46-51: a shallow copy;
    returns the new object. *)
Definition get_default (w : which) (st : cstate) : cstate * nat :=
  (with_dicts st (dicts st ++ [nth (default_of w st) (dicts st) []]), List.length (dicts st)).

(** An argument that need not be a dict. (utils.py:54-56, 62-64) *)
Inductive arg : Type := NotDict | ADict (a : nat).
(** set_default_kq_conf / set_default_paq_conf, utils.py:54-67; the flag tells
    whether an exception was raised. *)
Definition set_default (w : which) (v : arg) (st : cstate) : cstate * bool :=
  match v with
  | NotDict => (st, true)
  | ADict a =>
    match nth_error (dicts st) a with
    | None => (st, true)
    | Some d => if same_keys d (nth (default_of w st) (dicts st) []) then (with_default w a st, false) else (st, true)
    end
  end.

(** kq_conf or get_default_kq_conf(), base.py:47, 49: an empty dict is false. *)
Definition conf_or_default (w : which) (c : option nat) (st : cstate) : cstate * nat :=
  match c with
  | Some a => match nth a (dicts st) [] with [] => get_default w st | _ => (st, a) end
  | None => get_default w st
  end.

(** What a layer is made of besides its configurations. (base.py:97-104) *)
Record spec : Type := mkSpec { s_act : bool; s_kernel : option (list nat); s_bias : option (list nat); s_out : list (option nat); s_loc : Z }.

(** HLayerBase.__init__, base.py:44-50. *)
Definition new_layer (sp : spec) (kq_conf paq_conf : option nat) (st : cstate) : cstate :=
  let '(st, kq) := conf_or_default KQ kq_conf st in
  let '(st, paq) := conf_or_default PAQ paq_conf st in
  with_layers st (clayers st ++ [mkCL (s_act sp) kq paq (s_kernel sp) (s_bias sp) (s_out sp) (s_loc sp) None None]).

(** The shape of a variable: add_weight rejects unknown dimensions. (base.py:116-122, 133-139) *)
Fixpoint known (l : list (option nat)) : result (list nat) :=
  match l with
  | [] => Ok []
  | Some n :: l' => rbind (known l') (fun r => Ok (n :: r))
  | None :: _ => Raise
  end.

(** init_quantizers, base.py:110-143, and HLayerBase.post_build, base.py:93-106:
    the strategies of the two quantizers. *)
Definition build_quantizers (kq paq : dict) (l : clayer) : result (option pval * pval) :=
  let kernel_strategy :=
    match c_kernel l with
    | None => Ok None
    | Some ks =>
      rbind (from_config kq) (fun q =>
      rbind (bw_shape (snd q) (map Some ks)) (fun s =>
      rbind (known (fst s)) (fun _ => Ok (Some (fst q)))))
    end in
  rbind kernel_strategy (fun kstrat =>
  rbind (from_config paq) (fun q =>
  rbind (bw_shape (snd q) (c_outshape l)) (fun s =>
  rbind (known (fst s)) (fun qs =>
    match dget paq "rnd_strategy" with
    | None => Raise
    | Some v =>
      Ok (kstrat, if is_auto v then VInt (if covers (c_bias l) qs (c_loc l) then 0 else 3) else fst q)
    end)))).

(** HActivation.post_build, misc.py:36-37: the layer's configuration object is
    changed in place.  The flag tells whether the key is missing. *)
Definition activation_rewrite (l : clayer) (st : cstate) : cstate * bool :=
  if c_act l
  then match dget (nth (c_paq l) (dicts st) []) "rnd_strategy" with
       | None => (st, true)
       | Some v => if is_auto v then (with_dicts st (set_nth (dicts st) (c_paq l) (dset (nth (c_paq l) (dicts st) []) "rnd_strategy" (VStr "standard_round"))), false) else (st, false)
       end
  else (st, false).

(** build of a layer: misc.py:35-51 and base.py:93-106. *)
Definition build_layer (n : nat) (st : cstate) : cstate * bool :=
  match nth_error (clayers st) n with
  | None => (st, true)
  | Some l =>
    let '(st, raised) := activation_rewrite l st in
    if raised then (st, true)
    else match build_quantizers (nth (c_kq l) (dicts st) []) (nth (c_paq l) (dicts st) []) l with
         | Raise => (st, true)
         | Ok (ks, ps) =>
           (with_layers st (set_nth (clayers st) n (mkCL (c_act l) (c_kq l) (c_paq l) (c_kernel l) (c_bias l) (c_outshape l) (c_loc l) ks (Some ps))), false)
         end
  end.

(** One statement of a program using the library: creating, writing to and
    deleting from dictionaries, changing a regularizer, the four functions
    above, creating and building layers.  Statements that raise leave the state
    as it is at that point. (utils.py:46-67, base.py:44-143) *)
Inductive op : Type :=
| ONew (d : dict)
| OWrite (a : nat) (key : string) (v : pval)
| ODel (a : nat) (key : string)
| OReg (r : nat) (l1 : Qc)
| OGet (w : which)
| OSet (w : which) (v : arg)
| OLayer (sp : spec) (kq_conf paq_conf : option nat)
| OBuild (n : nat).
Definition step (o : op) (st : cstate) : cstate :=
  match o with
  | ONew d => with_dicts st (dicts st ++ [d])
  | OWrite a key v => with_dicts st (set_nth (dicts st) a (dset (nth a (dicts st) []) key v))
  | ODel a key => with_dicts st (set_nth (dicts st) a (ddel (nth a (dicts st) []) key))
  | OReg r l1 => mkC (dicts st) (set_nth (regs st) r l1) (def_kq st) (def_paq st) (clayers st)
  | OGet w => fst (get_default w st)
  | OSet w v => fst (set_default w v st)
  | OLayer sp kq_conf paq_conf => new_layer sp kq_conf paq_conf st
  | OBuild n => fst (build_layer n st)
  end.
Definition run (h : list op) (st : cstate) : cstate := fold_left (fun st o => step o st) h st.
