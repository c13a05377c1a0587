(** Vocabulary for C68: bitwidths adapted to the scaled weights. *)
From Coq Require Import ZArith Qcanon List Bool.
From Verif Require Import Base.Num Base.Tensor Model.Quantizer Model.Layers Model.BatchNorm Spec.Quant.
Import ListNotations.

(** The layer with all bitwidths of its kernel at 32. *)
Definition full_width (b : bnlayer) : bnlayer :=
  let q := b_kq b in
  mkB (b_ts b) (b_kernel b) (mkH (mkT (shape (q_fbw q)) (map (fun _ => qz 32) (data (q_fbw q)))) (q_min q) (q_max q) (q_skip q) (q_strategy q) (q_exact q) (q_clip q))
      (b_bias b) (b_bias_loc b) (b_center b) (b_scale b) (b_gamma b) (b_beta b) (b_mean b) (b_var b) (b_eps b) (b_momentum b) (b_paq b)
      (b_relu b) (b_loc b) (b_out b).

(** The weights w of group g (of n) of a kernel, each with the index of its channel (the last axis). *)
Definition group_weight (kernel : tensor Qc) (n g c : nat) (w : Qc) : Prop :=
  exists j, nth_error (data kernel) (j * n + g) = Some w /\ c = Nat.modulo (j * n + g) (last (shape kernel) 1%nat).

(** e is f minus the largest log2 |w * s c| over the weights w of group g, +inf if all these products are 0. *)
Definition adapted (lg : Qc -> Qc) (kernel : tensor Qc) (n g : nat) (s : nat -> Qc) (f : Qc) (e : ext) : Prop :=
  least (fun v => exists c w, group_weight kernel n g c w /\ (w * s c)%Qc <> qz 0 /\ v = (f - lg (qabs (w * s c)))%Qc) e.

(** v is e cut off at lo and hi. *)
Definition cut (lo hi : Qc) (e : ext) (v : Qc) : Prop :=
  match e with
  | Fin f => ((f <= lo)%Qc -> v = lo) /\ ((hi <= f)%Qc -> v = hi) /\ ((lo <= f)%Qc -> (f <= hi)%Qc -> v = f)
  | PosInf => v = hi
  | NegInf => v = lo
  end.
