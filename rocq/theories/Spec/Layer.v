(** Specification vocabulary for layers and their proxies. *)
From Coq Require Import ZArith Qcanon List Bool.
From Verif Require Import Base.Num Base.Tensor Model.FixedPoint Model.Quantizer Model.Layers Spec.Fixed Spec.Quant.
Import ListNotations.
Local Open Scope nat_scope.

(** The position of the bitwidth (and register) shared by output element e. *)
Definition group_of (q : hgq) (out : list nat) (e : nat) : nat := bidx (tl (shape (q_fbw q))) out e.

(** The quantizer has one batch-independent bitwidth and register per group,
    and its groups cover samples of shape [out]. *)
Definition quantizer_shape (q : hgq) (out : list nat) : Prop :=
  exists bw, shape (q_fbw q) = 1 :: bw /\ bshape out bw = Some out /\ length (data (q_fbw q)) = prodn bw /\
    length (data (q_min q)) = prodn bw /\ length (data (q_max q)) = prodn bw.

(** The bitwidths are inside the clip range (true after any call, C15). *)
Definition bits_clipped (q : hgq) : Prop :=
  match q_clip q with
  | None => True
  | Some (lo, hi) => Forall (fun f => (lo <= f)%Qc /\ (f <= hi)%Qc) (data (q_fbw q))
  end.

(** Fractional bits of group g. *)
Definition frac_bits (q : hgq) (g : nat) (r : Z) : Prop := nearest_even (nth g (data (q_fbw q)) (qz 0)) r.

(** The registers hold a finite range on the grid of each group: what a
    calibration run that stays in the supported range leaves behind. *)
Definition calibrated (q : hgq) : Prop :=
  forall g, g < length (data (q_fbw q)) -> exists r mn mx,
    frac_bits q g r /\ (-32 <= r <= 93)%Z /\
    nth g (data (q_min q)) PosInf = Fin mn /\ nth g (data (q_max q)) NegInf = Fin mx /\
    on_grid r mn /\ on_grid r mx /\ (mn <= mx)%Qc /\ (- pow2 32 <= mn)%Qc /\ (mx < pow2 32)%Qc.

(** Sample y is inside the recorded range of each of its groups. *)
Definition in_range (q : hgq) (out : list nat) (y : sample) : Prop :=
  forall e, e < prodn out -> exists mn mx,
    nth (group_of q out e) (data (q_min q)) PosInf = Fin mn /\
    nth (group_of q out e) (data (q_max q)) NegInf = Fin mx /\
    (mn <= nth e y (qz 0))%Qc /\ (nth e y (qz 0) <= mx)%Qc.

(** Well-formed layer: shapes fit, one bias entry per channel, the kernel can be quantized. *)
Definition layer_ok (l : hlayer) : Prop :=
  quantizer_shape (l_paq l) (l_out l) /\ 0 < prodn (l_out l) /\
  match l_op l with
  | Fn g => forall x, length (g x) = prodn (l_out l)
  | Linear ts kernel kq bias bias_loc =>
      length ts = prodn (l_out l) /\
      (exists s, broadcast_shape (shape kernel) (shape (q_fbw kq)) = Some s) /\
      match bias with
      | None => True
      | Some b => bias_loc = l_loc l /\ exists c, 0 < c /\ shape b = [c] /\
          ((l_loc l = (-1)%Z /\ exists pre, l_out l = pre ++ [c]) \/
           (l_loc l = 1%Z /\ exists s, l_out l = c :: s))
      end
  end.

(** The layer without its ReLU: its outputs are the quantized pre-activation values. *)
Definition no_relu (l : hlayer) : hlayer := mkL (l_op l) (l_paq l) false (l_loc l) (l_out l).
