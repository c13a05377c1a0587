(** Model of src/HGQ/proxy/unary_lut.py (lines 13-100), element-wise. *)
From Coq Require Import ZArith Qcanon List Bool String.
From Verif Require Import Base.Num Base.Tensor Model.FixedPoint Model.Precision.
Import ListNotations.
Open Scope Z_scope.

(** A UnaryLUT layer: fractional bits of its input (its scale is 2.**f), its
    output precision and its table (lines 25-34). *)
Record ulut : Type := mkLut { lut_f : Z; lut_out : kif; lut_table : list Qc }.

(** gfixed_quantizer on the table, line 33. *)
Fixpoint quantize_table (table : list Qc) (k b i : Z) (R S : string) : result (list Qc) :=
  match table with
  | [] => match gfixed_quantizer (qz 0) k b i R S with Ok _ => Ok [] | Raise => Raise end
  | x :: t => rbind (gfixed_quantizer x k b i R S) (fun y => rbind (quantize_table t k b i R S) (fun l => Ok (y :: l)))
  end.

(** __init__ with a table, lines 20-35.  [limit] is LUT_SIZE_LIMITATION
    (line 13; 4096 by default). *)
Definition lut_init (limit : Z) (kif_in kif_out : kif) (R S : string) (table : list Qc) : result ulut :=
  let '(k, i, f) := kif_in in
  let '(ko, io, fo) := kif_out in
  if negb (Z.ltb 0 (k + i + f)) then Raise
  else if negb (Z.ltb 0 (ko + io + fo)) then Raise
  else if (Z.ltb 0 limit && negb (Z.ltb (2 ^ (k + i + f)) limit))%bool then Raise
  else rbind (quantize_table table ko (ko + io + fo) (ko + io) R S) (fun t => Ok (mkLut f kif_out t)).

(** call, lines 37-42: tf.round to nearest even, floor-mod by the table size,
    gather. *)
Definition lut_call (l : ulut) (x : Qc) : result Qc :=
  let n := Z.of_nat (List.length (lut_table l)) in
  if Z.eqb n 0 then Raise
  else match nth_error (lut_table l) (Z.to_nat (qround_even (x * pow2 (lut_f l))%Qc mod n)) with
       | Some y => Ok y
       | None => Raise
       end.

(** The points at which the activation is tabulated, lines 67-74. *)
Definition lut_inputs (t : kif) : list Qc :=
  let '(k, i, f) := t in
  let n := 2 ^ (k + i + f) in
  if Z.eqb k 0 then linspace (- pow2 i * qz k)%Qc (pow2 i - fpow2 (- f))%Qc n
  else let half := linspace (qz 0) (pow2 i - fpow2 (- f))%Qc (n / 2) in half ++ map (fun x => (x - pow2 i)%Qc) half.

(** from_activation with both precisions given, lines 59-75, for an
    element-wise function (its cast to float32 included).  [hls_max] is
    HLS_MAX_ACTIVATION_LUT_SIZE (65536 by default).  2.**i overflows from
    i = 1024 on. *)
Definition from_activation (limit hls_max : Z) (func : Qc -> Qc) (kif_in : kif) (out : kifRS) : result ulut :=
  let '(k, i, f) := kif_in in
  let '(kif_out, R, V) := out in
  if negb (Z.ltb 0 (k + i + f)) then Raise
  else if negb (Z.ltb (2 ^ (k + i + f)) hls_max) then Raise
  else if Z.leb 1024 i then Raise
  else lut_init limit kif_in kif_out R V (map func (lut_inputs kif_in)).

(** What xfr_to_unary_lut returns: the layer itself or a table. (unary_lut.py:86-100) *)
Inductive xfr_out : Type := Kept | Replaced (l : ulut).

(** xfr_to_unary_lut, lines 86-100, and the defaults of from_activation
    (lines 54-59): the result precision is derived for the layer. *)
Definition xfr_to_unary_lut (limit hls_max : Z) (fuel : nat) (net : pnet) (n : nat) (s : pst) (max_table_size : Z) : result (xfr_out * pst) :=
  match nth_error net n with
  | None => Raise
  | Some (NAct ASoftmax _, _) | Some (NAct ARelu _, _) | Some (NAct ALinear _, _) => Ok (Kept, s)
  | Some (NAct _ func, ps) =>
    rbind (input_kifs fuel net ps s) (fun r =>
      match fst r with
      | [] => Raise
      | [(k, i, f)] =>
        if qltb (qz max_table_size) (pow2 (k + i + f)) then Ok (Kept, snd r)
        else rbind (result_kifRS fuel net n (snd r)) (fun o =>
             rbind (from_activation limit hls_max func (k, i, f) (fst o)) (fun l => Ok (Replaced l, snd o)))
      | _ => Ok (Kept, snd r)
      end)
  | Some _ => Ok (Kept, s)
  end.

(** The second conversion of to_proxy_model, convert.py:372-373: [order] are the
    layers of the first proxy in the order in which they are converted.  The
    tables by layer; the layers' variables are shared with the first proxy. *)
Fixpoint lut_pass (limit hls_max : Z) (fuel : nat) (net : pnet) (max_table_size : Z) (order : list nat) (s : pst) : result (list (nat * ulut) * pst) :=
  match order with
  | [] => Ok ([], s)
  | n :: order' =>
    rbind (xfr_to_unary_lut limit hls_max fuel net n s max_table_size) (fun r =>
    rbind (lut_pass limit hls_max fuel net max_table_size order' (snd r)) (fun r' =>
      Ok (match fst r with Kept => fst r' | Replaced l => (n, l) :: fst r' end, snd r')))
  end.
