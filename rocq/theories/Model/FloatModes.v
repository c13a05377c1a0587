(** All rounding and overflow modes of the proxy quantizer (src/HGQ/proxy/fixed_point_quantizer.py:13-129) in IEEE single
    precision.  Float32.v has RND, TRN, SAT and WRAP.

    Negation, absolute value, sign, floor, round, comparison and a product with a sign or with a mask of zeros and ones
    are exact in float32; every other operation rounds.  floormod is the exact remainder of the two floats. *)
From Coq Require Import ZArith Qcanon Bool String.
From Verif Require Import Base.Num Base.Tensor Model.FixedPoint Model.Float32.
Local Open Scope Z_scope.

(** fixed_point_quantizer.py:24-26 *)
Definition RND_CONV32 (x : Qc) : Qc := qz (qround_even x).
(** fixed_point_quantizer.py:29-32 *)
Definition TRN_ZERO32 (x : Qc) : Qc := (qz (qfloor (qabs x)) * qsign x)%Qc.
(** fixed_point_quantizer.py:35-38 *)
Definition RND_ZERO32 (x : Qc) : Qc := (- qz (qfloor (rn32 (- qabs x + qhalf))) * qsign x)%Qc.
(** fixed_point_quantizer.py:41-43 *)
Definition RND_MIN_INF32 (x : Qc) : Qc := (- qz (qfloor (rn32 (- x + qhalf))))%Qc.
(** fixed_point_quantizer.py:46-49 *)
Definition RND_INF32 (x : Qc) : Qc := (qz (qfloor (rn32 (qabs x + qhalf))) * qsign x)%Qc.

(** fixed_point_quantizer.py:60-66 *)
Definition SAT_ZERO32 (x : Qc) (k b : Z) : Qc :=
  let high := rn32 (pow2 (b - k) - qz 1)%Qc in
  let low := rn32 (rn32 (- high - qz 1) * qz k)%Qc in
  let mask := if (qleb x high && qleb low x)%bool then qz 1 else qz 0 in
  (x * mask)%Qc.
(** fixed_point_quantizer.py:69-74 *)
Definition SAT_SYM32 (x : Qc) (k b : Z) : Qc :=
  let high := rn32 (pow2 (b - k) - qz 1)%Qc in
  let low := rn32 (- high * qz k)%Qc in
  clip_by_value x low high.
(** fixed_point_quantizer.py:85-92 *)
Definition WRAP_SM32 (x : Qc) (k b : Z) : Qc :=
  let high := rn32 (pow2 (b - k) - qz 1)%Qc in
  let low := rn32 (- rn32 (high + qz 1) * qz k)%Qc in
  let interval := rn32 (rn32 (rn32 (high - low) + qz 1) * qz 2)%Qc in
  let mapped := floormod (rn32 (rn32 (x - high) - qz 1)) interval in
  rn32 (rn32 (qabs (rn32 (rn32 (mapped - rn32 (interval / qz 2)) + qhalf)) - qhalf) + low)%Qc.

(** fixed_point_quantizer.py:95-103; None = KeyError *)
Definition RND_ALL32 (s : string) : option (Qc -> Qc) :=
  if String.eqb s "RND" then Some RND32
  else if String.eqb s "RND_ZERO" then Some RND_ZERO32
  else if String.eqb s "RND_MIN_INF" then Some RND_MIN_INF32
  else if String.eqb s "RND_INF" then Some RND_INF32
  else if String.eqb s "RND_CONV" then Some RND_CONV32
  else if String.eqb s "TRN_ZERO" then Some TRN_ZERO32
  else if String.eqb s "TRN" then Some TRN32
  else None.
(** fixed_point_quantizer.py:105-111; None = KeyError *)
Definition SAT_ALL32 (s : string) : option (Qc -> Z -> Z -> Qc) :=
  if String.eqb s "SAT" then Some SAT32
  else if String.eqb s "SAT_ZERO" then Some SAT_ZERO32
  else if String.eqb s "SAT_SYM" then Some SAT_SYM32
  else if String.eqb s "WRAP" then Some WRAP32
  else if String.eqb s "WRAP_SM" then Some WRAP_SM32
  else None.

(** gfixed_quantizer in float32, one element, fixed_point_quantizer.py:114-129 *)
Definition gfixed_float (x : Qc) (k b i : Z) (R S : string) : result Qc :=
  match RND_ALL32 R, SAT_ALL32 S with
  | Some rnd, Some sat => Ok (gfixed32 rnd sat k b i x)
  | _, _ => Raise
  end.

(** call of FixedPointQuantizer in float32, fixed_point_quantizer.py:178-182 (training=True raises) *)
Definition fpq_call_float {O} (q : fpq O) (training : bool) (x : tensor Qc) : result (tensor Qc) :=
  if training then Raise else
  match RND_ALL32 (rnd_name q), SAT_ALL32 (sat_name q) with
  | Some rnd, Some sat => bmap2 (qz 0) (mkCfg 0 0 0) (fun v c => gfixed32 rnd sat (kn c) (bits c) (ints c) v) x (cfgs q)
  | _, _ => Raise
  end.
