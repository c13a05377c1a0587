(** The closures fixed, ufixed and gfixed (src/HGQ/proxy/fixed_point_quantizer.py:132-143), exported by HGQ.proxy. *)
From Coq Require Import ZArith Qcanon String.
From Verif Require Import Base.Num Model.FixedPoint.
Local Open Scope Z_scope.

(** gfixed, fixed_point_quantizer.py:132-135 (the inner compute, 133-134) *)
Definition gfixed (keep_negative bits integer_bits : Z) (R S : string) : Qc -> result Qc :=
  fun x => gfixed_quantizer x keep_negative bits integer_bits R S.
(** ufixed, fixed_point_quantizer.py:138-139 *)
Definition ufixed (bits integer_bits : Z) (R S : string) : Qc -> result Qc := gfixed 0 bits integer_bits R S.
(** fixed, fixed_point_quantizer.py:142-143 *)
Definition fixed (bits integer_bits : Z) (R S : string) : Qc -> result Qc := gfixed 1 bits integer_bits R S.
(** The default modes RND='TRN', SAT='WRAP' of the three, fixed_point_quantizer.py:132, 138, 142 *)
Definition gfixed_d (keep_negative bits integer_bits : Z) : Qc -> result Qc := gfixed keep_negative bits integer_bits "TRN" "WRAP".
Definition ufixed_d (bits integer_bits : Z) : Qc -> result Qc := ufixed bits integer_bits "TRN" "WRAP".
Definition fixed_d (bits integer_bits : Z) : Qc -> result Qc := fixed bits integer_bits "TRN" "WRAP".
