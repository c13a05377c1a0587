(** When single precision is exact. *)
From Coq Require Import ZArith Qcanon List Bool.
From Verif Require Import Base.Num Base.Tensor Model.FixedPoint Model.Quantizer Model.Layers Spec.Quant Spec.Layer Spec.Float.
Import ListNotations.
Local Open Scope Z_scope.

(** The terms of a sum are multiples of 2^G and their absolute values add up to at most 2^(G+23). *)
Definition exact_range (G : Z) (ts : list Qc) : Prop :=
  -149 <= G <= 103 /\ Forall (fun t => exists m, t = (qz m * pow2 G)%Qc) ts /\
  (fold_right (fun t s => qabs t + s) (qz 0) ts <= pow2 (G + 23))%Qc.

(** v with r fractional bits: neither v nor v * 2^r needs rounding, and rounding v * 2^r to an integer by adding
    1/2 is not one of the exceptions. *)
Definition quantizes_exactly (floor : bool) (r : Z) (v : Qc) : Prop :=
  -100 <= r <= 100 /\ float32 v /\ float32 (v * pow2 r)%Qc /\
  (floor = false -> (qabs (v * pow2 r) < pow2 100)%Qc /\ ~ half_exception (v * pow2 r)%Qc).
Definition all_quantize_exactly (strategy : Z) (fs vs : list Qc) : Prop :=
  forall v f r, In v vs -> In f fs -> nearest_even f r -> quantizes_exactly (Z.eqb strategy 3) r v.

(** Kernel and bias of a layer can be quantized without rounding errors. *)
Definition parameters_exact (l : hlayer) : Prop :=
  match l_op l with
  | Fn _ => True
  | Linear _ kernel kq bias _ =>
      wf_tensor kernel /\ wf_tensor (q_fbw kq) /\ bits_clipped kq /\
      all_quantize_exactly (q_strategy kq) (data (q_fbw kq)) (data kernel) /\
      match bias with
      | Some b => wf_tensor b /\ all_quantize_exactly (q_strategy (l_paq l)) (data (q_fbw (l_paq l))) (data b)
      | None => True
      end
  end.

(** The terms summed for output e of a layer with kernel values w and bias values b (one per channel). *)
Definition terms (l : hlayer) (ts : taps) (w : list Qc) (b : option (list Qc)) (x : list Qc) (e : nat) : list Qc :=
  (map (fun ab => nth (fst ab) x (qz 0) * nth (snd ab) w (qz 0)) (nth e ts []) ++
   match b with Some b => [nth (chan (l_loc l) (l_out l) e) b (qz 0)] | None => [] end)%Qc.

(** The sum for output e is exact and so is its quantization to r fractional bits. *)
Definition sum_exact (r : Z) (ts : list Qc) : Prop :=
  -100 <= r <= 100 /\ exists G, exact_range G ts /\ -149 <= G + r <= 76.

(** The same for a format of the proxy: at most 23 bits, no finer than the terms. *)
Definition format_exact (G : Z) (c : qcfg) : Prop :=
  (kn c = 0 \/ kn c = 1) /\ kn c <= bits c <= 23 /\ -100 <= bits c - ints c <= 100 /\ -149 <= G + (bits c - ints c) <= 0.

(** The formats output e passes through. *)
Definition formats_at (l : hlayer) (p : player) (e : nat) : list qcfg :=
  let at_e (q : fpq unit) := nth (group_of (l_paq l) (l_out l) e) (data (cfgs q)) (mkCfg 0 0 0) in
  match p_chain p with One q => [at_e q] | Two q1 q2 => data (cfgs q1) ++ [at_e q2] end.

(** The weights a layer uses at inference, and those of its proxy. *)
Definition quantized_weights (pw : Qc -> Qc) (ln2 : Qc) (l : hlayer) (w : list Qc) (b : option (list Qc)) : Prop :=
  match l_op l with
  | Fn _ => True
  | Linear _ kernel kq bias loc =>
      (exists t, fused_qkernel pw ln2 kernel kq = Ok t /\ w = data t) /\
      match bias with
      | None => b = None
      | Some b0 => exists t, bias_forward pw ln2 (l_paq l) b0 false loc (fun _ => qz 0) = Ok t /\ b = Some (data t)
      end
  end.
Definition deployed_weights (pw : Qc -> Qc) (ln2 : Qc) (l : hlayer) (w : list Qc) (b : option (list Qc)) : Prop :=
  match l_op l with
  | Fn _ => True
  | Linear _ kernel kq bias _ =>
      (exists t, fused_qkernel pw ln2 kernel kq = Ok t /\ w = data t) /\
      match bias with
      | None => b = None
      | Some b0 => exists t, fused_qbias pw ln2 l b0 = Ok t /\ b = Some (data t)
      end
  end.

(** Every output of the layer, for the inputs xs, is exact up to its quantization; w and b are the quantized kernel
    and bias. *)
Definition layer_exact (l : hlayer) (w : list Qc) (b : option (list Qc)) (xs : list (list (list Qc))) : Prop :=
  forall x e r, In x xs -> (e < prodn (l_out l))%nat -> frac_bits (l_paq l) (group_of (l_paq l) (l_out l) e) r ->
  match l_op l with
  | Fn g => quantizes_exactly (Z.eqb (q_strategy (l_paq l)) 3) r (nth e (g x) (qz 0))
  | Linear ts _ _ _ _ => sum_exact r (terms l ts w b (hd [] x) e)
  end.

(** The same for the proxy; w and b are the weights it holds. *)
Definition proxy_exact (l : hlayer) (p : player) (w : list Qc) (b : option (list Qc)) (xs : list (list (list Qc))) : Prop :=
  forall x e, In x xs -> (e < prodn (l_out l))%nat -> exists G,
    exact_range G (match l_op l with Fn g => [nth e (g x) (qz 0)] | Linear ts _ _ _ _ => terms l ts w b (hd [] x) e end) /\
    Forall (format_exact G) (formats_at l p e).
