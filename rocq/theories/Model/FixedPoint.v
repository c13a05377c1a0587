(** Model of src/HGQ/proxy/fixed_point_quantizer.py. *)
From Coq Require Import ZArith Qcanon List Bool String.
From Verif Require Import Base.Num Base.Tensor.
Import ListNotations.
Open Scope Z_scope.

(** ** Rounding modes (fixed_point_quantizer.py:13-49), on the scaled value *)

(** fixed_point_quantizer.py:13-15 *)
Definition TRN (x : Qc) : Qc := qz (qfloor x).

(** fixed_point_quantizer.py:18-21 *)
Definition RND (x : Qc) : Qc := qz (qfloor (x + qhalf)).

(** fixed_point_quantizer.py:24-26 *)
Definition RND_CONV (x : Qc) : Qc := qz (qround_even x).

(** fixed_point_quantizer.py:29-32 *)
Definition TRN_ZERO (x : Qc) : Qc :=
  let sign := qsign x in (qz (qfloor (qabs x)) * sign)%Qc.

(** fixed_point_quantizer.py:35-38 *)
Definition RND_ZERO (x : Qc) : Qc :=
  let sign := qsign x in (- qz (qfloor (- qabs x + qhalf)) * sign)%Qc.

(** fixed_point_quantizer.py:41-43 *)
Definition RND_MIN_INF (x : Qc) : Qc := (- qz (qfloor (- x + qhalf)))%Qc.

(** fixed_point_quantizer.py:46-49 *)
Definition RND_INF (x : Qc) : Qc :=
  let sign := qsign x in (qz (qfloor (qabs x + qhalf)) * sign)%Qc.

(** ** Overflow modes (fixed_point_quantizer.py:52-92).
    [k] and [b] are integer valued (they are cast from int8); all other
    arithmetic is that of the float values. *)

(** fixed_point_quantizer.py:52-57 *)
Definition SAT (x : Qc) (k b : Z) : Qc :=
  let high := (pow2 (b - k) - qz 1)%Qc in
  let low := (- (high + qz 1) * qz k)%Qc in
  clip_by_value x low high.

(** fixed_point_quantizer.py:60-66 *)
Definition SAT_ZERO (x : Qc) (k b : Z) : Qc :=
  let high := (pow2 (b - k) - qz 1)%Qc in
  let low := ((- high - qz 1) * qz k)%Qc in
  let mask := if (qleb x high && qleb low x)%bool then qz 1 else qz 0 in
  (x * mask)%Qc.

(** fixed_point_quantizer.py:69-74 *)
Definition SAT_SYM (x : Qc) (k b : Z) : Qc :=
  let high := (pow2 (b - k) - qz 1)%Qc in
  let low := (- high * qz k)%Qc in
  clip_by_value x low high.

(** fixed_point_quantizer.py:77-82 *)
Definition WRAP (x : Qc) (k b : Z) : Qc :=
  let high := (pow2 (b - k) - qz 1)%Qc in
  let low := (- (high + qz 1) * qz k)%Qc in
  (floormod (x - low) (high - low + qz 1) + low)%Qc.

(** fixed_point_quantizer.py:85-92 *)
Definition WRAP_SM (x : Qc) (k b : Z) : Qc :=
  let high := (pow2 (b - k) - qz 1)%Qc in
  let low := (- (high + qz 1) * qz k)%Qc in
  let interval := ((high - low + qz 1) * qz 2)%Qc in
  let mapped := floormod (x - high - qz 1) interval in
  (qabs (mapped - interval * qhalf + qhalf) - qhalf + low)%Qc.

(** fixed_point_quantizer.py:95-103; None = KeyError *)
Definition RND_MAP (s : string) : option (Qc -> Qc) :=
  if String.eqb s "RND" then Some RND
  else if String.eqb s "RND_ZERO" then Some RND_ZERO
  else if String.eqb s "RND_MIN_INF" then Some RND_MIN_INF
  else if String.eqb s "RND_INF" then Some RND_INF
  else if String.eqb s "RND_CONV" then Some RND_CONV
  else if String.eqb s "TRN_ZERO" then Some TRN_ZERO
  else if String.eqb s "TRN" then Some TRN
  else None.

(** fixed_point_quantizer.py:105-111; None = KeyError *)
Definition SAT_MAP (s : string) : option (Qc -> Z -> Z -> Qc) :=
  if String.eqb s "SAT" then Some SAT
  else if String.eqb s "SAT_ZERO" then Some SAT_ZERO
  else if String.eqb s "SAT_SYM" then Some SAT_SYM
  else if String.eqb s "WRAP" then Some WRAP
  else if String.eqb s "WRAP_SM" then Some WRAP_SM
  else None.

(** fixed_point_quantizer.py:118-129, one element, modes already looked up. *)
Definition gfixed_elem (rnd : Qc -> Qc) (sat : Qc -> Z -> Z -> Qc) (k b i : Z) (x : Qc) : Qc :=
  let float_bits := b - i in
  let scale := pow2 float_bits in
  let scaled_input := (x * scale)%Qc in
  let quantized := sat (rnd scaled_input) k b in
  (quantized / scale * (if Z.eqb b 0 then qz 0 else qz 1))%Qc.

(** gfixed_quantizer (fixed_point_quantizer.py:114-129), one element; the
    broadcasting of the bitwidth tensors is in [fpq_call]. *)
Definition gfixed_quantizer (x : Qc) (k b i : Z) (R S : string) : result Qc :=
  match RND_MAP R, SAT_MAP S with
  | Some rnd, Some sat => Ok (gfixed_elem rnd sat k b i x)
  | _, _ => Raise
  end.

(** ** The layer (fixed_point_quantizer.py:146-233) *)

(** int8 wrap-around of an integer result. (fixed_point_quantizer.py:154-167, 186) *)
Definition i8 (z : Z) : Z := (z + 128) mod 256 - 128.

(** One element's configuration: keep_negative, bits, integers.
    (fixed_point_quantizer.py:165-167) *)
Record qcfg : Type := mkCfg { kn : Z; bits : Z; ints : Z }.

(** The attributes of a FixedPointQuantizer that its methods use
    (fixed_point_quantizer.py:165-174).  keep_negative, bits and integers
    have one shape (asserted on line 168), so they are one tensor of triples.
    [overrides] is kept as opaque data of any type. *)
Record fpq (O : Type) : Type := mkFPQ {
  cfgs : tensor qcfg; rnd_name : string; sat_name : string; overrides : O }.
Arguments mkFPQ {O}.
Arguments cfgs {O}.
Arguments rnd_name {O}.
Arguments sat_name {O}.
Arguments overrides {O}.

(** __init__, fixed_point_quantizer.py:151-172: [zeros] masks sign and integer
    width of the elements whose width is 0. *)
Definition init_elem (c : qcfg) : qcfg :=
  let zeros := Z.eqb (bits c) 0 in
  mkCfg (if zeros then 0 else kn c) (bits c) (if zeros then 0 else ints c).
Definition fpq_init {O} (c : tensor qcfg) (R S : string) (o : O) : fpq O :=
  mkFPQ (tmap init_elem c) R S o.

(** call, fixed_point_quantizer.py:178-182 (training=False; training=True raises). *)
Definition fpq_call {O} (q : fpq O) (training : bool) (x : tensor Qc) : result (tensor Qc) :=
  if training then Raise else
  match RND_MAP (rnd_name q), SAT_MAP (sat_name q) with
  | Some rnd, Some sat =>
      bmap2 (qz 0) (mkCfg 0 0 0)
        (fun v c => gfixed_elem rnd sat (kn c) (bits c) (ints c) v) x (cfgs q)
  | _, _ => Raise
  end.

(** np.max / tf.reduce_max of a non-empty integer list. (fixed_point_quantizer.py:187, 202) *)
Definition zmax_list (l : list Z) : Z :=
  match l with [] => 0 | a :: l' => fold_left Z.max l' a end.

(** result_t_kif, fixed_point_quantizer.py:184-188 (int8 arithmetic). *)
Definition result_t_kif {O} (q : fpq O) : Z * Z * Z :=
  let cs := data (cfgs q) in
  (zmax_list (map kn cs),
   zmax_list (map (fun c => i8 (ints c - kn c)) cs),
   zmax_list (map (fun c => i8 (bits c - ints c)) cs)).

(** heterogeneous, fixed_point_quantizer.py:200-209 *)
Definition heterogeneous {O} (q : fpq O) : bool :=
  let cs := data (cfgs q) in
  let k0 := zmax_list (map kn cs) in
  let b0 := zmax_list (map bits cs) in
  let i0 := zmax_list (map ints cs) in
  if negb (forallb (fun c => Z.eqb (kn c) k0) cs) then true
  else if negb (forallb (fun c => Z.eqb (bits c) b0) cs) then true
  else if negb (forallb (fun c => Z.eqb (ints c) i0) cs) then true
  else false.

(** fusible, fixed_point_quantizer.py:190-198.  [n_inbound] is the number of
    inbound nodes of the quantizer, [last_is_list] whether it has several
    inbound layers, [n_outbound] the number of outbound nodes of its inbound
    layer. *)
Definition fusible {O} (q : fpq O) (n_inbound : nat) (last_is_list : bool) (n_outbound : nat)
  : result bool :=
  if negb (Nat.eqb n_inbound 1) then Raise
  else if last_is_list then Raise
  else if negb (Nat.eqb n_outbound 1) then Ok false
  else Ok (negb (heterogeneous q)).

(** The config dictionary (fixed_point_quantizer.py:216-224), without the
    keras base-layer entries. *)
Record fpq_config (O : Type) : Type := mkConf {
  cf_RND : string; cf_SAT : string; cf_shape : list nat; cf_overrides : O; cf_fusible : bool }.
Arguments mkConf {O}.
Arguments cf_RND {O}.
Arguments cf_SAT {O}.
Arguments cf_shape {O}.
Arguments cf_overrides {O}.
Arguments cf_fusible {O}.

(** get_config, fixed_point_quantizer.py:211-224: returns the config and the
    layer after the call (negative widths are clamped in place). *)
Definition get_config {O} (q : fpq O) (n_inbound : nat) (last_is_list : bool) (n_outbound : nat)
  : result (fpq_config O * fpq O) :=
  let cs := data (cfgs q) in
  if negb (forallb (fun c => (Z.eqb (kn c) 0 || Z.eqb (kn c) 1)%bool) cs) then Raise
  else
    let q' :=
      if negb (forallb (fun c => Z.leb 0 (bits c)) cs)
      then mkFPQ (tmap (fun c => mkCfg (kn c) (Z.max (bits c) 0) (ints c)) (cfgs q))
                 (rnd_name q) (sat_name q) (overrides q)
      else q in
    rbind (fusible q' n_inbound last_is_list n_outbound) (fun fu =>
      Ok (mkConf (rnd_name q') (sat_name q') (shape (cfgs q')) (overrides q') fu, q')).

(** from_config, fixed_point_quantizer.py:226-233: dummies of -128 everywhere. *)
Definition from_config {O} (c : fpq_config O) : fpq O :=
  let dummy := mkCfg (-128) (-128) (-128) in
  fpq_init (mkT (cf_shape c) (repeat dummy (prodn (cf_shape c)))) (cf_RND c) (cf_SAT c) (cf_overrides c).

(** Keras' restoring of the three weights (tf.Variable of
    fixed_point_quantizer.py:165-167) into a layer; a shape mismatch raises. *)
Definition set_weights {O} (q : fpq O) (w : tensor qcfg) : result (fpq O) :=
  if list_eq_dec Nat.eq_dec (shape w) (shape (cfgs q))
  then Ok (mkFPQ w (rnd_name q) (sat_name q) (overrides q))
  else Raise.

(** Saving (config first, then weights) and loading a layer. (fixed_point_quantizer.py:211-233) *)
Definition save_load {O} (q : fpq O) (n_inbound : nat) (last_is_list : bool) (n_outbound : nat)
  : result (fpq O) :=
  rbind (get_config q n_inbound last_is_list n_outbound) (fun cq =>
    set_weights (from_config (fst cq)) (cfgs (snd cq))).
