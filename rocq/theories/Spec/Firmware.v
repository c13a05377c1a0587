(** What the hardware computes when every layer of a proxy network is given the
    registered types: fixed-point types read from their strings, products and
    sums in the accumulator type in any order, results stored in the result
    type, quantizers that can be merged into the layer before them removed.
    Independent of the derivation. *)
From Coq Require Import ZArith Qcanon List Bool String Ascii DecimalString Permutation.
From Verif Require Import Base.Num Base.Tensor Model.FixedPoint Model.Precision Model.Lut Spec.Fixed Spec.Precision Spec.NetEval.
Import ListNotations.
Open Scope Z_scope.

(** ** Types *)

(** Sign flag, bits, integer bits (sign included), rounding, overflow. *)
Record hwt : Type := mkHw { h_k : Z; h_b : Z; h_i : Z; h_rnd : string; h_sat : string }.
(** Storing a value in a type. *)
Definition cast (t : hwt) (x : Qc) : result Qc := gfixed_quantizer x (h_k t) (h_b t) (h_i t) (h_rnd t) (h_sat t).

(** The parts of a string between the characters "<", "," and ">". *)
Definition separator (c : ascii) : bool := (Ascii.eqb c "<" || Ascii.eqb c "," || Ascii.eqb c ">")%char.
Fixpoint fields (s : string) : list string :=
  match s with
  | EmptyString => [EmptyString]
  | String c s' =>
    if separator c then EmptyString :: fields s'
    else match fields s' with [] => [String c EmptyString] | h :: l => String c h :: l end
  end.
(** "fixed<b,i>", "ufixed<b,i,RND>", "fixed<b,i,RND,SAT>", ...; truncation and
    wrap-around if nothing is said. *)
Definition read_type (s : string) : option hwt :=
  let make k b i R V :=
    match NilZero.int_of_string b, NilZero.int_of_string i with
    | Some b, Some i => Some (mkHw k (Z.of_int b) (Z.of_int i) R V)
    | _, _ => None
    end in
  match fields s with
  | h :: b :: i :: modes =>
    let k := if String.eqb h "fixed" then Some 1 else if String.eqb h "ufixed" then Some 0 else None in
    match k, modes with
    | Some k, [""] => make k b i "TRN" "WRAP"
    | Some k, [R; ""] => make k b i R "WRAP"
    | Some k, [R; V; ""] => make k b i R V
    | _, _ => None
    end
  | _ => None
  end%string.

(** The type with a given name in a configuration. *)
Definition type_named (types : list (string * string)) (name : string) : option hwt :=
  match find (fun p => String.eqb (fst p) name) types with Some p => read_type (snd p) | None => None end.

(** Adding up terms in an accumulator: in any order, from any number of partial
    sums, every term and every intermediate result stored in the accumulator's
    type. *)
Inductive sums (t : hwt) : list Qc -> Qc -> Prop :=
| sum_one x y : cast t x = Ok y -> sums t [x] y
| sum_two l l1 l2 a b y : Permutation l (l1 ++ l2) -> sums t l1 a -> sums t l2 b -> cast t (a + b)%Qc = Ok y -> sums t l y.

(** One output of a kernel layer with weights ws, bias b (None without bias) and
    inputs xs: weights and bias are stored in their types, products and bias
    added up in the accumulator, the sum is stored in the result type. *)
Definition circuit (types : list (string * string)) (ws xs : list Qc) (b : option Qc) (z : Qc) : Prop :=
  exists wt at_ bt rt ws' b' acc,
    type_named types "weight_t" = Some wt /\ type_named types "accum_t" = Some at_ /\ type_named types "bias_t" = Some bt /\ type_named types "result_t" = Some rt /\
    rseq (map (cast wt) ws) = Ok ws' /\ match b with None => b' = qz 0 | Some v => cast bt v = Ok b' end /\
    sums at_ (map (fun p => (fst p * snd p)%Qc) (combine ws' xs) ++ [b']) acc /\ cast rt acc = Ok z.

(** ** Tables *)

(** The table of a tanh (half = 4) or sigmoid (half = 8): size entries, the
    activation at points in equal steps from -half on, up to half.  An input
    reads the entry of the last point not above it; beyond the ends, the first
    or last one. *)
Definition table_point (half size j : Z) : Qc := (qz (2 * half * j) / qz size - qz half)%Qc.
Definition table_index (half size : Z) (x : Qc) : Z := Z.max 0 (Z.min (size - 1) (qfloor (x * qz size / qz (2 * half))%Qc + size / 2)).
Definition tabulated (half size : Z) (x : Qc) : Qc := table_point half size (table_index half size x).

(** A lookup layer: the bits of the input, as a whole number, are the position. *)
Definition lookup (l : ulut) (x : Qc) : result Qc :=
  match nth_error (lut_table l) (Z.to_nat (qfloor (x * pow2 (lut_f l))%Qc mod Z.of_nat (List.length (lut_table l)))) with Some y => Ok y | None => Raise end.

(** ** Networks *)

(** Quantizers that are removed: the only reader of their input, one format. *)
Definition removed (net : pnet) (s : pst) (n : nat) : bool :=
  match nth_error net n with
  | Some (NFpq q, [p]) => match nth_error s q with Some o => (Nat.eqb (List.length (out_layers net p)) 1 && negb (heterogeneous o))%bool | None => false end
  | _ => false
  end.

Section Firmware.
  Variable (net : pnet) (s : pst) (geo : nat -> list recipe) (feed : nat -> list Qc) (opaque : nat -> list (list Qc) -> list Qc).
  (** The types of the layers by name ("result_t", ...), their table sizes, the
      tables of lookup layers, and the circuits adding up the terms of the
      output elements of kernel layers. *)
  Variable types : nat -> string -> option hwt.
  Variable sizes : nat -> option Z.
  Variable tables : nat -> option ulut.
  Variable adder : nat -> recipe -> hwt -> list Qc -> result Qc.

  Definition as_type (n : nat) (name : string) (x : Qc) : result Qc := match types n name with Some t => cast t x | None => Raise end.

  Definition fw_element (n : nat) (kd : pkind) (nin : nat) (ins : list (list Qc)) (r : recipe) : result Qc :=
    match kd with
    | NFpq q =>
      if removed net s n
      then rbind (fetches ins (r_src r)) (fun xs => match xs with [x] => demand (Nat.eqb nin 1 && forallb (from 0) (r_src r)) (Ok x) | _ => Raise end)
      else rbind (element s kd nin ins r) (as_type n "result_t")
    | NKernel kernel div bias =>
      rbind (fetches ins (r_src r)) (fun xs =>
      let ws := column kernel div (Z.of_nat (r_ch r)) in
      if negb (Nat.eqb nin 1 && forallb (from_pad 0) (r_src r) && Z.ltb (Z.of_nat (r_ch r)) div && Nat.eqb (List.length xs) (List.length ws)) then Raise
      else
        rbind (rseq (map (as_type n "weight_t") ws)) (fun ws =>
        rbind (match bias with None => Ok (qz 0) | Some l => match nth_error l (r_ch r) with Some b => as_type n "bias_t" b | None => Raise end end) (fun b =>
        match types n "accum_t"%string with
        | None => Raise
        | Some t => rbind (adder n r t (map (fun p => (fst p * snd p)%Qc) (combine ws xs) ++ [b])) (as_type n "result_t")
        end)))
    | _ => rbind (element s kd nin ins r) (as_type n "result_t")
    end.

  Definition fw_out (n : nat) (kd : pkind) (ins : list (list Qc)) : result (list Qc) :=
    match kd with
    | NInput => rseq (map (as_type n "result_t") (feed n))
    | NAct ASoftmax _ => rseq (map (fun y => rbind (as_type n "table_t" y) (as_type n "result_t")) (opaque n ins))
    | NActL true _ | NUnknown => rseq (map (as_type n "result_t") (opaque n ins))
    | NLut _ => match ins, tables n with [x], Some l => rseq (map (lookup l) x) | _, _ => Raise end
    | NAct ATanh func =>
      match ins, sizes n with [x], Some size => rseq (map (fun v => rbind (as_type n "table_t" (func (tabulated 4 size v))) (as_type n "result_t")) x) | _, _ => Raise end
    | NAct ASigmoid func =>
      match ins, sizes n with [x], Some size => rseq (map (fun v => rbind (as_type n "table_t" (func (tabulated 8 size v))) (as_type n "result_t")) x) | _, _ => Raise end
    | NAct _ func => match ins with [x] => rseq (map (fun v => rbind (as_type n "table_t" (func v)) (as_type n "result_t")) x) | _ => Raise end
    | NActL false func => match ins with [x] => rseq (map (fun v => as_type n "result_t" (func v)) x) | _ => Raise end
    | _ => rseq (map (fw_element n kd (List.length ins) ins) (geo n))
    end.
  Fixpoint fw_run (rest : pnet) (env : list (list Qc)) : result (list (list Qc)) :=
    match rest with
    | [] => Ok env
    | (kd, ps) :: rest' =>
      rbind (inputs_of env ps) (fun ins =>
      rbind (fw_out (List.length env) kd ins) (fun y => fw_run rest' (env ++ [y])%list))
    end.
End Firmware.

(** An adding circuit delivers a sum. *)
Definition adding (adder : nat -> recipe -> hwt -> list Qc -> result Qc) : Prop :=
  forall n r t l, l <> [] -> In (h_rnd t) rounding_names -> In (h_sat t) overflow_names -> exists y, adder n r t l = Ok y /\ sums t l y.

(** ** Networks that are computed exactly *)

(** A kernel layer whose result has the given type: the accumulator has a bit;
    with wrap-around the result truncates, rounds half up or is not coarser
    than the products. *)
Definition accumulates (fuel : nat) (net : pnet) (s : pst) (n : nat) (k i f : Z) (R V : string) : Prop :=
  match nth_error net n with
  | Some (NKernel _ _ _, _) =>
    exists pk pi pf, produced fuel net n s = Ok ((pk, pi, pf), s) /\
      (V = "WRAP"%string /\ 0 <= i + pf /\ 1 <= k + i + pf /\ (R = "TRN"%string \/ R = "RND"%string \/ pf <= f) \/
       V <> "WRAP"%string /\ 0 <= pi + pf /\ 1 <= pk + pi + pf)
  | _ => True
  end.
(** An input read by quantizers that truncate or round half up and wrap around
    or saturate. *)
Definition input_readers (net : pnet) (s : pst) (n : nat) (V : string) : Prop :=
  (exists ps, nth_error net n = Some (NInput, ps)) /\ fusible_result net n s = Ok None /\ (V = "WRAP" \/ V = "SAT" \/ V = "SAT_SYM")%string /\
  forall m kd ps, nth_error net m = Some (kd, ps) -> In n ps -> ps = [n] /\ exists q, kd = NFpq q /\
    forall o, nth_error s q = Some o -> legal_fpq o /\ (rnd_name o = "TRN" \/ rnd_name o = "RND")%string.
(** The inputs of a tanh are in the range of its table, [-4, 4), and multiples of
    at most 4; of a sigmoid, [-8, 8) and 8. *)
Definition in_table (fuel : nat) (net : pnet) (s : pst) (n : nat) : Prop :=
  let input ps half := exists p k i f, ps = [p] /\ produced fuel net p s = Ok ((k, i, f), s) /\ i <= half /\ - half <= f in
  match nth_error net n with
  | Some (NAct ATanh _, ps) => input ps 2
  | Some (NAct ASigmoid _, ps) => input ps 3
  | _ => True
  end.
(** A lookup layer: its input is not finer than the table, the entries are of its
    output format, and of the format of a quantizer removed after it. *)
Definition looked_up (fuel : nat) (net : pnet) (s : pst) (tables : nat -> option ulut) (n : nat) : Prop :=
  exists l p k i f ko io fo, nth_error net n = Some (NLut (ko, io, fo), [p]) /\ tables n = Some l /\
    produced fuel net p s = Ok ((k, i, f), s) /\ f <= lut_f l /\ Forall (fits ko io fo) (lut_table l) /\
    forall m q o c y, removed net s m = true -> nth_error net m = Some (NFpq q, [n]) -> nth_error s q = Some o -> In c (data (cfgs o)) -> In y (lut_table l) -> quant o c y = Ok y.
(** Layer n is a removed quantizer without another one behind it, or a lookup
    layer, or has a result type of at least one bit and suitable readers. *)
Definition synthesized (fuel : nat) (net : pnet) (s : pst) (tables : nat -> option ulut) (n : nat) : Prop :=
  (removed net s n = true /\ fusible_result net n s = Ok None) \/
  looked_up fuel net s tables n \/
  ((forall t ps, nth_error net n <> Some (NLut t, ps)) /\ in_table fuel net s n /\ removed net s n = false /\ exists k i f R V, result_kifRS fuel net n s = Ok (((k, i, f), R, V), s) /\
    (k = 0 \/ k = 1) /\ 1 <= k + i + f /\ 0 <= i + f /\ In R rounding_names /\ In V overflow_names /\ accumulates fuel net s n k i f R V /\
    (one_reader net s n \/ input_readers net s n V \/
     (forall ps, nth_error net n <> Some (NInput, ps)) /\ (demanding_readers fuel net s n \/ mild_readers fuel net s n))).
