(** What the layers of a proxy model can output: the set of element values of
    every layer, given that the network inputs are floats.  Independent of the
    precision derivation. *)
From Coq Require Import ZArith Qcanon List Bool String.
From Verif Require Import Base.Num Base.Tensor Model.FixedPoint Model.Precision Spec.Fixed.
Import ListNotations.
Open Scope Z_scope.

Definition qsum (l : list Qc) : Qc := fold_right Qcplus (qz 0) l.
Definition dotq (ws xs : list Qc) : Qc := qsum (map (fun p => (fst p * snd p)%Qc) (combine ws xs)).

(** The weights seen by output channel u of a row-major kernel whose last axis
    has [div] entries. *)
Definition column (kernel : list Qc) (div u : Z) : list Qc :=
  map (fun j => nth (Z.to_nat (Z.of_nat j * div + u)) kernel (qz 0)) (seq 0 (Z.to_nat (Z.of_nat (List.length kernel) / div))).

(** A finite float: sign, and at most 65535 bits on either side. *)
Definition float_value (x : Qc) : Prop := fits 1 65535 65535 x.

(** [value net s n y]: layer n of the network with quantizer variables s can
    output an element of value y.  Padding feeds zeros to kernels. *)
Inductive value (net : pnet) (s : pst) : nat -> Qc -> Prop :=
| v_input n ps x : nth_error net n = Some (NInput, ps) -> float_value x -> value net s n x
| v_fpq n q p o c x y : nth_error net n = Some (NFpq q, [p]) -> nth_error s q = Some o -> In c (data (cfgs o)) ->
    value net s p x -> gfixed_quantizer x (kn c) (bits c) (ints c) (rnd_name o) (sat_name o) = Ok y -> value net s n y
| v_softmax n ps kd f y : nth_error net n = Some (kd, ps) -> kd = NAct ASoftmax f \/ kd = NActL true f ->
    (qz 0 <= y)%Qc -> (y <= qz 1)%Qc -> float_value y -> value net s n y
| v_act n p a f x : nth_error net n = Some (NAct a f, [p]) -> a <> ASoftmax -> value net s p x -> value net s n (f x)
| v_actl n p f x : nth_error net n = Some (NActL false f, [p]) -> value net s p x -> value net s n (f x)
| v_avg n p pool xs : nth_error net n = Some (NAvg pool, [p]) -> Forall (value net s p) xs ->
    Z.of_nat (List.length xs) = fold_left Z.mul pool 1 -> value net s n (qsum xs / qz (Z.of_nat (List.length xs)))%Qc
| v_add n ps xs : nth_error net n = Some (NAdd, ps) -> Forall2 (value net s) ps xs -> value net s n (qsum xs)
| v_sub n p r x y : nth_error net n = Some (NSub, [p; r]) -> value net s p x -> value net s r y -> value net s n (x - y)%Qc
| v_dot n p r xs ys : nth_error net n = Some (NDot, [p; r]) -> Forall (value net s p) xs -> Forall (value net s r) ys ->
    List.length xs = List.length ys -> value net s n (dotq xs ys)
| v_concat n ps p x : nth_error net n = Some (NConcat, ps) -> In p ps -> value net s p x -> value net s n x
| v_kernel n p kernel div bias u b xs : nth_error net n = Some (NKernel kernel div bias, [p]) -> 0 <= u < div ->
    Forall (fun x => value net s p x \/ x = qz 0) xs -> List.length xs = List.length (column kernel div u) ->
    match bias with None => b = qz 0 | Some l => nth_error l (Z.to_nat u) = Some b end ->
    value net s n (dotq (column kernel div u) xs + b)%Qc
| v_reshape n p x : nth_error net n = Some (NReshape, [p]) -> value net s p x -> value net s n x
| v_select n p x : nth_error net n = Some (NSelect, [p]) -> value net s p x -> value net s n x
| v_lut n ps k i f x y R S : nth_error net n = Some (NLut (k, i, f), ps) -> gfixed_quantizer x k (k + i + f) (k + i) R S = Ok y -> value net s n y
| v_unknown n ps x : nth_error net n = Some (NUnknown, ps) -> float_value x -> value net s n x.

(** The layers are listed after their inputs. *)
Definition topological (net : pnet) : Prop :=
  forall n kd ps, nth_error net n = Some (kd, ps) -> Forall (fun p => (p < n)%nat) ps.

(** Quantizers whose formats are all legal, with one sign flag, and either one
    and the same for all elements or with wrap-around. *)
Definition legal_fmt (c : qcfg) : Prop :=
  (kn c = 0 \/ kn c = 1) /\ kn c <= bits c /\ -128 <= ints c - kn c < 128 /\ -128 <= bits c - ints c < 128.
Definition legal_fpq (q : fpq unit) : Prop :=
  data (cfgs q) <> [] /\ Forall legal_fmt (data (cfgs q)) /\
  In (rnd_name q) rounding_names /\ In (sat_name q) overflow_names.
Definition uniform (q : fpq unit) (c : qcfg) : Prop := legal_fpq q /\ Forall (fun d => d = c) (data (cfgs q)).
Definition wrapping (q : fpq unit) (k : Z) : Prop := legal_fpq q /\ Forall (fun d => kn d = k) (data (cfgs q)) /\ sat_name q = "WRAP"%string.

(** Integer bounds within which constant arrays are analysed exactly. *)
Definition plain_value (x : Qc) : Prop := on_grid 32 x /\ (- pow2 32 <= x)%Qc /\ (x < pow2 32)%Qc.

(** Conditions on one layer under which its derived precision is claimed to be
    right; [input] is the precision derived for its inputs, [own] for itself. *)
Definition node_fine (kd : pkind) (s : pst) (input : list kif) (own : kif) : Prop :=
  match kd with
  | NFpq q => exists o, nth_error s q = Some o /\ ((exists c, uniform o c) \/ (exists k, wrapping o k))
  | NAct ASoftmax _ | NActL true _ => True
  | NAct _ func | NActL false func =>
      forall k i f, In (k, i, f) input ->
        k + i + f <= 20 /\ -1000 <= i < 1000 /\ -1000 <= f <= 1000 /\
        (forall x, fits k i f x -> plain_value (func x)) /\
        (k + i + f <= 0 -> plain_value (func (qz 1)))
  | NAvg pool => exists c, 0 <= c /\ fold_left Z.mul pool 1 = 2 ^ c
  | NSub => fst (fst own) = 1
  | NDot => False
  | NKernel kernel div bias =>
      0 < div /\ kernel <> [] /\ Z.of_nat (List.length kernel) mod div = 0 /\ Forall plain_value kernel /\
      (* signed inputs: no output channel has all its weights equal to one negative power of two *)
      (forall k i f, In (k, i, f) input -> k = 1 -> forall u e, 0 <= u < div -> ~ Forall (fun w => w = (- pow2 e)%Qc) (column kernel div u)) /\
      (* the biases, if any, are multiples of the products' resolution and there is room for them *)
      match bias with
      | None => True
      | Some l => forall k i f u b, In (k, i, f) input -> 0 <= u < div -> nth_error l (Z.to_nat u) = Some b ->
          on_grid (snd own) b /\ (qsum (map qabs (column kernel div u)) * pow2 i + qabs b < pow2 (snd (fst own)))%Qc
      end
  | _ => True
  end.

(** Every layer for which the derivation runs to the end without changing any
    quantizer meets its condition, and lookup tables have proper formats. *)
Definition all_fine (net : pnet) (s : pst) : Prop :=
  (forall n kd ps fuel ts t, nth_error net n = Some (kd, ps) -> input_kifs fuel net ps s = Ok (ts, s) -> produced (S fuel) net n s = Ok (t, s) -> node_fine kd s ts t) /\
  (forall n k i f ps, nth_error net n = Some (NLut (k, i, f), ps) -> (k = 0 \/ k = 1) /\ 1 <= k + i + f).

(** Every quantizer variable belongs to one quantizer layer. *)
Definition own_quantizers (net : pnet) : Prop :=
  forall m1 m2 q ps1 ps2, nth_error net m1 = Some (NFpq q, ps1) -> nth_error net m2 = Some (NFpq q, ps2) -> m1 = m2.
(** Quantizers with one sign flag each and moderate widths (int8 variables). *)
Definition one_sign (o : fpq unit) : Prop := data (cfgs o) <> [] /\ exists k, Forall (fun c => kn c = k) (data (cfgs o)).
Definition moderate (o : fpq unit) : Prop :=
  Forall (fun c => (kn c = 0 \/ kn c = 1) /\ -60 <= bits c <= 60 /\ -60 <= ints c <= 60) (data (cfgs o)).

(** When shrinking a quantizer of format (ok, oi, of) to what an input of format
    (ik, ii, jf) needs is claimed to be harmless.  [exact_top]: the rounded
    largest input still has a code. *)
Definition exact_top (ik ii jf ok oi of : Z) : Prop := ~ (ik = 0 /\ ok = 1 /\ ii = oi /\ of < jf).
Definition harmless (S : string) (ik ii jf ok oi of : Z) : Prop :=
  match S with
  | "WRAP" => ik = ok \/ (ik = 0 /\ ok = 1 /\ (ii < oi \/ (ii = oi /\ jf <= of))) \/ (ik = 1 /\ ok = 0 /\ oi <= ii)
  | "SAT" => (ii <= oi \/ of <= jf) /\ exact_top ik ii jf ok oi of
  | "SAT_ZERO" => exact_top ik ii jf ok oi of
  | "SAT_SYM" => (ii <= oi \/ of <= jf) /\ exact_top ik ii jf ok oi of /\
      (ik = 0 \/ ok = 0 \/ (of < jf /\ 0 <= ii + of) \/ (of = jf /\ oi <= ii))
  | "WRAP_SM" => ii <= oi /\ ik <= ok /\ exact_top ik ii jf ok oi of
  | _ => False
  end%string.
