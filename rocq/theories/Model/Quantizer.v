(** Model of src/HGQ/quantizer/quantizer.py (the HGQ quantizer) and of
    scale_grad (layers/base.py:11-15) and MonoL1 (utils/utils.py:9-15). *)
From Coq Require Import ZArith Qcanon List Bool String.
From Verif Require Import Base.Num Base.Tensor Model.FixedPoint.
Import ListNotations.
Local Open Scope Z_scope.

(** ** Rounding *)

(** q_round, quantizer.py:13-36.  [noise] is the random draw for this element:
    in [0,1) for strategy 1, in [-1/2,1/2] for strategy 2. *)
Definition q_round (x : Qc) (strategy : Z) (noise : Qc) : result Qc :=
  if Z.eqb strategy 0 then Ok (qz (qfloor (x + qhalf)))
  else if Z.eqb strategy 1 then
    let fl := qz (qfloor x) in
    Ok (if qltb noise (x - fl) then fl + qz 1 else fl)%Qc
  else if Z.eqb strategy 2 then
    let noise := if qleb (qabs x) qhalf then (- x)%Qc else noise in
    Ok (noise + x)%Qc
  else if Z.eqb strategy 3 then Ok (qz (qfloor x))
  else Raise.

(** strategy_dict, utils.py:70-75, and its use in HGQ.__init__,
    quantizer.py:65: an unknown string becomes -1, an int is kept. *)
Definition strategy_of_string (s : string) : Z :=
  if String.eqb s "standard_round" then 0
  else if String.eqb s "stochastic_round" then 1
  else if String.eqb s "fast_uniform_noise_injection" then 2
  else if String.eqb s "floor" then 3
  else -1.

(** ** Forward pass of one element (quantizer.py:152-169)

    [pw] stands for tf.pow(two, .) at a non-integer exponent, [ln2] for the
    constant log2 of quantizer.py:10. *)
Section Elem.
  Variable pw : Qc -> Qc.
  Variable ln2 : Qc.

  (** quantizer.py:152-155 *)
  Definition q_scale (exact training : bool) (f : Qc) : Qc :=
    if (exact || negb training)%bool then pow2 (qround_even f) else pw f.

  (** quantizer.py:157-159 *)
  Definition eff_strategy (training : bool) (strategy : Z) : Z :=
    if (negb training && negb (Z.eqb strategy 3))%bool then 0 else strategy.

  (** quantizer.py:152-169, values only *)
  Definition forward_elem (strategy : Z) (exact training : bool) (noise f x : Qc) : result Qc :=
    let scale := q_scale exact training f in
    rbind (q_round (x * scale) (eff_strategy training strategy) noise) (fun r =>
      let xq := (r / scale)%Qc in
      let delta := (xq - x)%Qc in
      let delta := if training
                   then let prod := (delta * f * ln2)%Qc in ((delta + prod) - prod)%Qc
                   else delta in
      Ok (x + delta)%Qc).

  (** ** Forward-mode differentiation: a dual number is (value, tangent).
    (what the optimizer computes of quantizer.py:145-209) *)
  Definition dual : Type := (Qc * Qc)%type.
  Definition d_const (c : Qc) : dual := (c, qz 0).
  Definition d_add (a b : dual) : dual := (fst a + fst b, snd a + snd b)%Qc.
  Definition d_sub (a b : dual) : dual := (fst a - fst b, snd a - snd b)%Qc.
  Definition d_mul (a b : dual) : dual := (fst a * fst b, snd a * fst b + fst a * snd b)%Qc.
  Definition d_div (a b : dual) : dual :=
    (fst a / fst b, (snd a * fst b - fst a * snd b) / (fst b * fst b))%Qc.
  Definition stop_gradient (a : dual) : dual := (fst a, qz 0).
  (** tf.floor and tf.round have no gradient. (quantizer.py:25-35, 153) *)
  Definition d_floor (a : dual) : dual := (qz (qfloor (fst a)), qz 0).

  (** q_round on dual numbers, quantizer.py:24-36 *)
  Definition q_round_d (x : dual) (strategy : Z) (noise : Qc) : result dual :=
    if Z.eqb strategy 0 then Ok (d_floor (d_add x (d_const qhalf)))
    else if Z.eqb strategy 1 then
      let fl := d_floor x in
      Ok (if qltb noise (fst x - fst fl) then d_add fl (d_const (qz 1)) else fl)
    else if Z.eqb strategy 2 then
      let n := if qleb (qabs (fst x)) qhalf then (- fst x, - snd x)%Qc else d_const noise in
      Ok (d_add (stop_gradient n) x)
    else if Z.eqb strategy 3 then Ok (d_floor x)
    else Raise.

  (** quantizer.py:152-169 on dual numbers; the derivative of tf.pow(two, f) is ln2 * 2^f. *)
  Definition forward_elem_d (strategy : Z) (exact training : bool) (noise : Qc) (f x : dual) : result dual :=
    let scale := if (exact || negb training)%bool
                 then d_const (pow2 (qround_even (fst f)))
                 else (pw (fst f), ln2 * pw (fst f) * snd f)%Qc in
    rbind (q_round_d (d_mul x scale) (eff_strategy training strategy) noise) (fun r =>
      let xq := d_div r scale in
      let delta := stop_gradient (d_sub xq x) in
      let delta := if training
                   then let prod := d_mul (d_mul delta f) (d_const ln2) in
                        d_sub (stop_gradient (d_add delta prod)) prod
                   else delta in
      Ok (d_add x delta)).

  (** scale_grad, layers/base.py:11-15 *)
  Definition scale_grad (x scale : dual) : dual :=
    let sx := d_mul x scale in d_add sx (stop_gradient (d_sub x sx)).
End Elem.

(** MonoL1, utils/utils.py:9-15 (the constructor rejects a negative l1). *)
Definition qsum (l : list Qc) : Qc := fold_right Qcplus (qz 0) l.
Definition MonoL1 (l1 : Qc) (x : list Qc) : result Qc :=
  if qleb (qz 0) l1 then Ok (qsum x * l1)%Qc else Raise.

(** ** Bitwidth shape (quantizer.py:81-102) *)
Inductive skip_spec : Type :=
| SkipStr (s : string)
| SkipDims (d : list Z)
| SkipNone.

(** quantizer.py:83-95: resolve the specification for a given rank.
    None is the resolved value None. *)
Definition resolve_skip (s : skip_spec) (rank : nat) : result (option (list Z)) :=
  match s with
  | SkipStr s =>
      if String.eqb s "all" then Ok (Some (map Z.of_nat (seq 0 rank)))
      else if String.eqb s "batch" then Ok (Some [0])
      else if String.eqb s "none" then Ok None
      else if String.eqb s "except_last" then Ok (Some (map Z.of_nat (seq 0 (rank - 1))))
      else if String.eqb s "except_1st" then Ok (Some (0 :: map Z.of_nat (seq 2 (rank - 2))))
      else Raise
  | SkipDims d => Ok (Some d)
  | SkipNone => Ok None
  end.

(** Python list indexing: index of element d (negative from the end), None = IndexError.
    (quantizer.py:99-101) *)
Definition py_index (n : nat) (d : Z) : option nat :=
  if (Z.leb 0 d && Z.ltb d (Z.of_nat n))%bool then Some (Z.to_nat d)
  else if (Z.leb (- Z.of_nat n) d && Z.ltb d 0)%bool then Some (Z.to_nat (d + Z.of_nat n))
  else None.

Fixpoint set_nth {A} (l : list A) (n : nat) (v : A) : list A :=
  match l, n with
  | [], _ => []
  | _ :: l', O => v :: l'
  | a :: l', S n' => a :: set_nth l' n' v
  end.

(** quantizer.py:96-102; a dimension None is the unknown batch size. *)
Fixpoint bw_loop (dims : list Z) (shape : list (option nat)) (deg : nat)
  : result (list (option nat) * nat) :=
  match dims with
  | [] => Ok (shape, deg)
  | d :: ds =>
      match py_index (List.length shape) d with
      | None => Raise
      | Some j =>
          let v := match nth j shape None with Some v => v | None => 1%nat end in
          bw_loop ds (set_nth shape j (Some 1%nat)) (deg * v)
      end
  end.
Definition compute_bw_shape_and_degeneracy (s : skip_spec) (shape : list (option nat))
  : result (option (list Z) * list (option nat) * nat) :=
  rbind (resolve_skip s (List.length shape)) (fun skip =>
    match skip with
    | None => Ok (skip, shape, 1%nat)
    | Some dims => rbind (bw_loop dims shape 1%nat) (fun r => Ok (skip, fst r, snd r))
    end).

(** ** The quantizer object *)

(** The attributes of HGQ used by its methods (quantizer.py:61-79).  [q_skip]
    is the resolved skip_dims. *)
Record hgq : Type := mkH {
  q_fbw : tensor Qc; q_min : tensor ext; q_max : tensor ext;
  q_skip : option (list Z); q_strategy : Z; q_exact : bool; q_clip : option (Qc * Qc) }.

Definition with_fbw (q : hgq) (f : tensor Qc) : hgq :=
  mkH f (q_min q) (q_max q) (q_skip q) (q_strategy q) (q_exact q) (q_clip q).
Definition with_minmax (q : hgq) (mn mx : tensor ext) : hgq :=
  mkH (q_fbw q) mn mx (q_skip q) (q_strategy q) (q_exact q) (q_clip q).

(** minmax_reg_reset, quantizer.py:129-135 *)
Definition minmax_reg_reset (q : hgq) : hgq :=
  with_minmax q (tmap (fun _ => PosInf) (q_fbw q)) (tmap (fun _ => NegInf) (q_fbw q)).

(** build with a bitwidth tensor, quantizer.py:111-115 and 104-109 (minmax_record=True). *)
Definition hgq_build (f : tensor Qc) (skip : option (list Z)) (strategy : Z) (exact : bool)
  (clip : option (Qc * Qc)) : hgq :=
  minmax_reg_reset (mkH f (mkT [] []) (mkT [] []) skip strategy exact clip).

(** `if self.skip_dims`: None and the empty tuple are false. (quantizer.py:98, 170, 229, 279) *)
Definition skip_truthy (s : option (list Z)) : option (list Z) :=
  match s with Some (d :: ds) => Some (d :: ds) | _ => None end.

(** quantizer.py:170-177: new contents of _min / _max, or the shape error of assign. *)
Definition record_min (skip : option (list Z)) (xq : tensor Qc) (mn : tensor ext) : result (tensor ext) :=
  let e := tmap Fin xq in
  let red := match skip_truthy skip with
             | Some ds => treduce ext_min PosInf (axis_flags (List.length (shape xq)) ds) false e
             | None => e end in
  rbind (bmap2 PosInf PosInf ext_min red mn) (fun r =>
    if list_eq_dec Nat.eq_dec (shape r) (shape mn) then Ok r else Raise).
Definition record_max (skip : option (list Z)) (xq : tensor Qc) (mx : tensor ext) : result (tensor ext) :=
  let e := tmap Fin xq in
  let red := match skip_truthy skip with
             | Some ds => treduce ext_max NegInf (axis_flags (List.length (shape xq)) ds) false e
             | None => e end in
  rbind (bmap2 NegInf NegInf ext_max red mx) (fun r =>
    if list_eq_dec Nat.eq_dec (shape r) (shape mx) then Ok r else Raise).

Section Tensor.
  Variable pw : Qc -> Qc.
  Variable ln2 : Qc.

  (** forward, quantizer.py:145-179: output and the quantizer afterwards.
      [noise p] is the random draw at flat position p. *)
  Definition forward (q : hgq) (x : tensor Qc) (training record : bool) (noise : nat -> Qc)
    : result (tensor Qc * hgq) :=
    rbind (bmap2 (qz 0) (qz 0) (fun v f => (v, f)) x (q_fbw q)) (fun vf =>
    rbind (rseq (map (fun pvf => forward_elem pw ln2 (q_strategy q) (q_exact q) training
                                   (noise (fst pvf)) (snd (snd pvf)) (fst (snd pvf)))
                     (combine (seq 0 (List.length (data vf))) (data vf)))) (fun ys =>
    let y := mkT (shape vf) ys in
    if negb record then Ok (y, q)
    else rbind (record_min (q_skip q) y (q_min q)) (fun mn =>
         rbind (record_max (q_skip q) y (q_max q)) (fun mx =>
         Ok (y, with_minmax q mn mx))))).

  (** __call__, quantizer.py:137-143 (already built). *)
  Definition clip_fbw (q : hgq) : hgq :=
    match q_clip q with
    | None => q
    | Some (lo, hi) => with_fbw q (tmap (fun f => clip_by_value f lo hi) (q_fbw q))
    end.
  Definition call (q : hgq) (x : tensor Qc) (training record : bool) (noise : nat -> Qc)
    : result (tensor Qc * hgq) :=
    forward (clip_fbw q) x training record noise.

  (** Axes reduced by bias_forward, quantizer.py:184-189. *)
  Definition bias_dims (channel_loc : Z) (rank : nat) : result (list Z) :=
    if Z.eqb channel_loc (-1) then Ok (map Z.of_nat (seq 0 (rank - 1)))
    else if Z.eqb channel_loc 1 then Ok (0 :: map Z.of_nat (seq 2 (rank - 2)))
    else Raise.

  (** tf.reduce_max of the bitwidths over axes, keepdims=False; the result is
      always finite on a tensor without empty groups ([d] fills empty ones). (quantizer.py:191) *)
  Definition fin (d : Qc) (e : ext) : Qc := match e with Fin x => x | _ => d end.
  Definition reduce_max_q (dims : list Z) (t : tensor Qc) : tensor Qc :=
    tmap (fin (qz 0)) (treduce ext_max NegInf (axis_flags (List.length (shape t)) dims) false (tmap Fin t)).

  (** bias_forward, quantizer.py:181-209 *)
  Definition bias_forward (q : hgq) (x : tensor Qc) (training : bool) (channel_loc : Z) (noise : nat -> Qc)
    : result (tensor Qc) :=
    rbind (bias_dims channel_loc (List.length (shape (q_fbw q)))) (fun dims =>
    let fbw := reduce_max_q dims (q_fbw q) in
    rbind (bmap2 (qz 0) (qz 0) (fun v f => (v, f)) x fbw) (fun vf =>
    rbind (rseq (map (fun pvf => forward_elem pw ln2 (q_strategy q) (q_exact q) training
                                   (noise (fst pvf)) (snd (snd pvf)) (fst (snd pvf)))
                     (combine (seq 0 (List.length (data vf))) (data vf)))) (fun ys =>
    Ok (mkT (shape vf) ys)))).
End Tensor.

(** ** Bits from the recorded range *)

(** floor(log2(x)), ceil(log2(x)) of a non-negative number; log2(0) = -inf.
    (quantizer.py:228, 240, 256-260) *)
Definition floor_log2 (x : Qc) : zext := if qeqb x (qz 0) then ZNegInf else ZFin (flog2 x).
Definition ceil_log2 (x : Qc) : zext := if qeqb x (qz 0) then ZNegInf else ZFin (clog2 x).
Definition zext_add (z : zext) (n : Z) : zext := match z with ZNegInf => ZNegInf | ZFin a => ZFin (a + n) end.

(** np.clip(i, lo, hi) = minimum(maximum(i, lo), hi) (quantizer.py:263) *)
Definition zext_clip (i : zext) (lo hi : Z) : Z :=
  Z.min (match i with ZNegInf => lo | ZFin a => Z.max a lo end) hi.

(** get_bits_exact from the record, one element, quantizer.py:252-266: (k, i, f). *)
Definition bits_exact_elem (pos_only : bool) (mn mx fbw : Qc) : Z * Z * Z :=
  let f := qround_even fbw in
  let '(k, i) :=
    if pos_only then (0, zext_add (floor_log2 (qmax mx (qz 0))) 1)
    else (if qltb mn (qz 0) then 1 else 0,
          zext_max (ceil_log2 (qabs mn)) (ceil_log2 (qabs (mx + pow2 (- f))))) in
  let i := zext_clip i (- f - k) 32 in
  let '(k, i, f) := (i8 k, i8 i, i8 f) in
  let mask := if Z.eqb (i8 (k + i + f)) 0 then 0 else 1 in
  (k * mask, i * mask, f * mask).

(** quantizer.py:251: self._max - self._min >= 0 (inf - inf is nan, which fails). *)
Definition range_ok (mn mx : ext) : bool :=
  match mx, mn with
  | Fin b, Fin a => qleb a b
  | PosInf, Fin _ | PosInf, NegInf | Fin _, NegInf => true
  | _, _ => false
  end.

(** get_bits_exact(ref=None), quantizer.py:250-266, over all elements.
    Infinite registers that pass the assertion do not arise. *)
Definition get_bits_exact (q : hgq) (pos_only : bool) : result (list (Z * Z * Z)) :=
  let mm := combine (data (q_min q)) (data (q_max q)) in
  if negb (forallb (fun m => range_ok (fst m) (snd m)) mm) then Raise
  else Ok (map (fun mf => bits_exact_elem pos_only (fin (qz 0) (fst (fst mf))) (fin (qz 0) (snd (fst mf))) (snd mf))
               (combine mm (data (q_fbw q)))).

(** get_bits(ref=None), one element, quantizer.py:219-241: (int_bits, fp_bits, kn). *)
Definition bits_approx_elem (pos_only : bool) (mn mx fbw : Qc) : zext * Z * Z :=
  let fp := qround_even fbw in
  let '(ref, kn) :=
    if pos_only then (qmax mx (qz 0), 0)
    else (qmax (qabs mn) (qabs mx), if qltb mn (qz 0) then 1 else 0) in
  (zext_add (floor_log2 ref) 1, fp, kn).

(** act_bw of one element, layers/base.py:184-191 (value; scale_grad does not change it). *)
Definition relu_z (z : zext) : Z := match z with ZNegInf => 0 | ZFin a => Z.max a 0 end.
Definition act_bw_elem (relu_act : bool) (mn mx fbw : Qc) : Z :=
  let '(ib, fp, kn) := bits_approx_elem relu_act mn mx fbw in
  relu_z (zext_add ib (fp + if relu_act then 0 else kn)).

(** act_bw_exact of one element, layers/base.py:195-198 *)
Definition act_bw_exact_elem (relu_act : bool) (mn mx fbw : Qc) : Z :=
  let '(k, i, f) := bits_exact_elem relu_act mn mx fbw in i + f + k.

(** ** Bits of an array of constants (get_arr_bits, quantizer.py:39-55).
    [fl] is the float rounding of the sum arr + 1 on line 45 (the identity in
    exact arithmetic). *)
Definition zmax0 (l : list Z) : Z := fold_left Z.max l 0.
Definition get_arr_bits (fl : Qc -> Qc) (arr : list Qc) : list (Z * Z * Z) :=
  let kn := map (fun w => if qltb w (qz 0) then 1 else 0) arr in
  let a := map (fun w => qabs (w * pow2 32)%Qc) arr in
  let n := zmax0 (map (fun v => clog2 (fl (v + qz 1)%Qc)) a) in
  let divisor := map (fun j => pow2 (Z.of_nat j)) (seq 1 (Z.to_nat n - 1)) in
  map (fun kv =>
    let '(k, v) := kv in
    let low_pos := Z.of_nat (List.length (filter (fun d => qeqb (floormod v d) (qz 0)) divisor))
                   + (if qeqb v (qz 1) then 1 else 0) in
    let high_pos := if qeqb v (qz 0) then low_pos else flog2 v + 1 in
    let high_pos := i8 high_pos in
    let fb := 32 - low_pos in
    let int_bits := high_pos - low_pos - fb in
    let zero_mask := Z.eqb (int_bits + fb) 0 in
    let int_bits := if zero_mask then 0 else int_bits in
    let fb := if zero_mask then 0 else fb in
    (k, i8 int_bits, i8 fb)) (combine kn a).

(** get_bits_exact(ref) after quantization of ref, quantizer.py:269-272 *)
Definition arr_bits_masked (fl : Qc -> Qc) (w : list Qc) : list (Z * Z * Z) :=
  map (fun t => let '(k, i, f) := t in
         let mask := if Z.eqb (i8 (k + i + f)) 0 then 0 else 1 in (k * mask, i * mask, f * mask))
      (get_arr_bits fl w).

(** kernel_bw_exact, layers/base.py:178-181 *)
Definition kernel_bw_exact (fl : Qc -> Qc) (w : list Qc) : list Z :=
  map (fun t => let '(_, i, f) := t in i + f) (arr_bits_masked fl w).

(** kernel_bw of one weight without shared bitwidths (skip_dims None),
    quantizer.py:226-228 and layers/base.py:162-167 *)
Definition kernel_bw_elem (wq fbw : Qc) : Z :=
  relu_z (zext_add (zext_add (floor_log2 (qabs wq)) 1) (qround_even fbw)).

(** ** adapt_bw_bits, quantizer.py:274-281.  [lg] is log2 of a positive number;
    log2(0) = -inf, so a zero weight gets +inf. *)
Definition adapt_elem (lg : Qc -> Qc) (f w : Qc) : ext :=
  if qeqb w (qz 0) then PosInf else Fin (f - lg (qabs w))%Qc.
Definition adapt_bw_bits (lg : Qc -> Qc) (skip : option (list Z)) (fbw ref : tensor Qc) : result (tensor ext) :=
  rbind (bmap2 (qz 0) (qz 0) (adapt_elem lg) fbw ref) (fun nf =>
    let nf := match skip_truthy skip with
              | Some ds => treduce ext_min PosInf (axis_flags (List.length (shape nf)) ds) true nf
              | None => nf end in
    if list_eq_dec Nat.eq_dec (shape nf) (shape fbw) then Ok nf else Raise).
(** The clip of the next call (quantizer.py:141-142) on a possibly infinite bitwidth. *)
Definition clip_ext (e : ext) (lo hi : Qc) : Qc :=
  match e with Fin f => clip_by_value f lo hi | PosInf => qmax hi lo | NegInf => lo end.

(** ** Histories: a client of the class driving reset (quantizer.py:129),
    an assignment to the bitwidth variable (optimiser step, quantizer.py:281)
    and calls (quantizer.py:137).  [log] collects the outputs of the recording
    calls since the last reset. *)
Inductive hop : Type :=
| HReset
| HSetBits (f : tensor Qc)
| HCall (x : tensor Qc) (training record : bool) (noise : nat -> Qc).

Section Run.
  Variable pw : Qc -> Qc.
  Variable ln2 : Qc.
  Definition hstep (st : hgq * list (tensor Qc)) (op : hop) : result (hgq * list (tensor Qc)) :=
    let '(q, log) := st in
    match op with
    | HReset => Ok (minmax_reg_reset q, [])
    | HSetBits f =>
        if list_eq_dec Nat.eq_dec (shape f) (shape (q_fbw q)) then Ok (with_fbw q f, log) else Raise
    | HCall x training record noise =>
        rbind (call pw ln2 q x training record noise) (fun r =>
          Ok (snd r, if record then log ++ [fst r] else log))
    end.
  Fixpoint hrun (st : hgq * list (tensor Qc)) (ops : list hop) : result (hgq * list (tensor Qc)) :=
    match ops with
    | [] => Ok st
    | op :: ops' => rbind (hstep st op) (fun st' => hrun st' ops')
    end.
End Run.

(** Round to nearest even with 24 significant bits: the float32 addition of
    quantizer.py:45 on positive numbers in the normal range. *)
Definition rn24 (x : Qc) : Qc :=
  let e := flog2 x - 23 in (qz (qround_even (x * pow2 (- e))) * pow2 e)%Qc.
