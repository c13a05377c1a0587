(** IEEE single precision on rationals, and the inference path of the HGQ quantizer
    (src/HGQ/quantizer/quantizer.py) evaluated in it, one element.

    Every operation rounds its exact result to the nearest float32, ties to even, with
    gradual underflow.  Overflow and the sign of zero are not modelled.  tf.pow(two, n)
    with an integer n is taken to be exact. *)
From Coq Require Import ZArith Qcanon Bool.
From Verif Require Import Base.Num.
Local Open Scope Z_scope.

(** Rounding of the result of every float32 operation: 24 significant bits, least exponent -149.
    (the dtype of every computation: tf.cast at base.py:152-153, 'float32' at fixed_point_quantizer.py:118-122) *)
Definition rn32 (x : Qc) : Qc :=
  if qeqb x (qz 0) then qz 0
  else let e := Z.max (flog2 (qabs x) - 23) (-149) in (qz (qround_even (x * pow2 (- e))) * pow2 e)%Qc.

(** q_round at inference, quantizer.py:24-25 and 34-35 (strategy 3: floor; otherwise standard
    round, quantizer.py:158-159). *)
Definition q_round32 (floor : bool) (s : Qc) : Z := if floor then qfloor s else qfloor (rn32 (s + qhalf)).

(** forward at inference, quantizer.py:152-169 without the training branch; [n] is round(fbw). *)
Definition forward32 (floor : bool) (n : Z) (x : Qc) : Qc :=
  let scale := pow2 n in
  let s := rn32 (x * scale)%Qc in
  let xq := rn32 (qz (q_round32 floor s) / scale)%Qc in
  let delta := rn32 (xq - x)%Qc in
  rn32 (x + delta)%Qc.

(** forward in training mode with exact_q_value, quantizer.py:152-169; [ln2] is the float32
    constant of quantizer.py:10. *)
Definition forward32_train (floor : bool) (ln2 f x : Qc) : Qc :=
  let scale := pow2 (qround_even f) in
  let s := rn32 (x * scale)%Qc in
  let xq := rn32 (qz (q_round32 floor s) / scale)%Qc in
  let delta := rn32 (xq - x)%Qc in
  let prod := rn32 (rn32 (delta * f) * ln2)%Qc in
  let delta := rn32 (rn32 (delta + prod) - prod)%Qc in
  rn32 (x + delta)%Qc.

(** RND, SAT and WRAP of the proxy quantizer (fixed_point_quantizer.py:18-21, 52-57, 77-82) in
    float32; floormod(a, m) is the exact remainder of the two floats (C fmod, corrected). *)
Definition RND32 (x : Qc) : Qc := qz (qfloor (rn32 (x + qhalf))).
Definition TRN32 (x : Qc) : Qc := qz (qfloor x).
Definition SAT32 (x : Qc) (k b : Z) : Qc :=
  let high := rn32 (pow2 (b - k) - qz 1)%Qc in
  let low := rn32 (- rn32 (high + qz 1) * qz k)%Qc in
  clip_by_value x low high.
Definition WRAP32 (x : Qc) (k b : Z) : Qc :=
  let high := rn32 (pow2 (b - k) - qz 1)%Qc in
  let low := rn32 (- rn32 (high + qz 1) * qz k)%Qc in
  rn32 (floormod (rn32 (x - low)) (rn32 (rn32 (high - low) + qz 1)) + low)%Qc.

(** gfixed_quantizer, fixed_point_quantizer.py:118-129, in float32. *)
Definition gfixed32 (rnd : Qc -> Qc) (sat : Qc -> Z -> Z -> Qc) (k b i : Z) (x : Qc) : Qc :=
  let scale := pow2 (b - i) in
  let quantized := sat (rnd (rn32 (x * scale)%Qc)) k b in
  (rn32 (quantized / scale) * (if Z.eqb b 0 then qz 0 else qz 1))%Qc.
