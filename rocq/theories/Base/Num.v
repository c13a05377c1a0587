(** Numbers of the model.

    Every floating point scalar of /repo is modelled by an exact canonical
    rational [Qc] (Leibniz equality, computable).  This is the main
    simplification of the development (float32 rounding is ignored here and
    treated separately in Model/Float32.v).  This file only fixes the
    arithmetic vocabulary that the Python code takes from TensorFlow/numpy. *)
From Coq Require Export ZArith QArith Qcanon Qround List Bool.
Export ListNotations.
Open Scope Z_scope.

(** Integer as a number. (the float32 constants, e.g. quantizer.py:9) *)
Definition qz (z : Z) : Qc := Q2Qc (inject_Z z).
Definition q1 : Qc := qz 1.
Definition qhalf : Qc := Q2Qc (1 # 2).

(** [2.**e] for an integer exponent (tf.pow(two, e), 2**e).
    (quantizer.py:153, fixed_point_quantizer.py:124) *)
Definition pow2 (e : Z) : Qc := Q2Qc (Qpower (2 # 1) e).

(** Boolean comparisons. (quantizer.py:29, 32, 226) *)
Definition qleb (x y : Qc) : bool := Qle_bool x y.
Definition qltb (x y : Qc) : bool := negb (Qle_bool y x).
Definition qeqb (x y : Qc) : bool := Qeq_bool x y.

(** tf.minimum / tf.maximum / tf.abs. (quantizer.py:176-177, 227) *)
Definition qmin (x y : Qc) : Qc := if qleb x y then x else y.
Definition qmax (x y : Qc) : Qc := if qleb x y then y else x.
Definition qabs (x : Qc) : Qc := if qleb (qz 0) x then x else Qcopp x.

(** K.sign: -1, 0 or 1. (fixed_point_quantizer.py:31, 37, 48) *)
Definition qsign (x : Qc) : Qc :=
  if qltb x (qz 0) then qz (-1) else if qltb (qz 0) x then qz 1 else qz 0.

(** tf.floor / np.floor and np.ceil, as integers.
    (fixed_point_quantizer.py:15, quantizer.py:25, 256-260) *)
Definition qfloor (x : Qc) : Z := Qfloor x.
Definition qceil (x : Qc) : Z := Qceiling x.

(** tf.round: to nearest, ties to even. (quantizer.py:153, fixed_point_quantizer.py:26) *)
Definition qround_even (x : Qc) : Z :=
  let n := qfloor x in
  let d := Qcminus x (qz n) in
  if qltb d qhalf then n
  else if qltb qhalf d then n + 1
  else if Z.even n then n else n + 1.

(** tf.clip_by_value(x, lo, hi): minimum with hi first, then maximum with lo.
    (quantizer.py:142, fixed_point_quantizer.py:57, 74) *)
Definition clip_by_value (x lo hi : Qc) : Qc := qmax (qmin x hi) lo.

(** tf.math.floormod(x, y) = x - floor(x/y)*y. (fixed_point_quantizer.py:82, 91) *)
Definition floormod (x y : Qc) : Qc :=
  Qcminus x (Qcmult (qz (qfloor (Qcdiv x y))) y).

(** floor(log2(x)) for x > 0: exact. (quantizer.py:228, 240, 256) *)
Definition flog2 (x : Qc) : Z :=
  let e := Z.log2 (Qnum x) - Z.log2 (Zpos (Qden x)) in
  if qleb (pow2 e) x then e else e - 1.

(** ceil(log2(x)) for x > 0: exact. (quantizer.py:259-260) *)
Definition clog2 (x : Qc) : Z :=
  let e := flog2 x in if qleb x (pow2 e) then e else e + 1.

(** Results of operations that may raise. (e.g. the assertions at base.py:22-36) *)
Inductive result (A : Type) : Type :=
| Ok (a : A)
| Raise.
Arguments Ok {A} a.
Arguments Raise {A}.

Definition rbind {A B} (x : result A) (f : A -> result B) : result B :=
  match x with Ok a => f a | Raise => Raise end.

(** [Qc] extended with the two infinities (the initial min/max registers and
    log2(0)). (quantizer.py:133-135, 228) *)
Inductive ext : Type := NegInf | Fin (x : Qc) | PosInf.

Definition ext_leb (x y : ext) : bool :=
  match x, y with
  | NegInf, _ => true
  | _, PosInf => true
  | Fin a, Fin b => qleb a b
  | _, _ => false
  end.
Definition ext_min (x y : ext) : ext := if ext_leb x y then x else y.
Definition ext_max (x y : ext) : ext := if ext_leb x y then y else x.

(** Integers extended with -inf: floor/ceil of log2 of a non-negative number.
    (quantizer.py:256-263) *)
Inductive zext : Type := ZNegInf | ZFin (z : Z).
Definition zext_max (x y : zext) : zext :=
  match x, y with
  | ZNegInf, _ => y
  | _, ZNegInf => x
  | ZFin a, ZFin b => ZFin (Z.max a b)
  end.
