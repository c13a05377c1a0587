(** Evaluation of a proxy network on tensors (flat lists of elements): what its
    layers compute, given for every output element which input elements it is
    computed from.  Independent of the precision derivation. *)
From Coq Require Import ZArith Qcanon List Bool String.
From Verif Require Import Base.Num Base.Tensor Model.FixedPoint Model.Precision Model.Lut Spec.Fixed Spec.Precision.
Import ListNotations.
Open Scope Z_scope.

(** Where one output element comes from: the elements read (number of the input
    tensor, position; None is padding), the channel of a kernel or the element
    of a quantizer that applies, and for scalar products the second operand. *)
Record recipe : Type := mkR { r_src : list (option (nat * nat)); r_ch : nat; r_src2 : list (option (nat * nat)) }.

Section Run.
  Variable s : pst.
  Variable geo : nat -> list recipe.
  (** The network inputs, the outputs of layers computing something else
      (softmax, unknown layers), the tables of lookup layers. *)
  Variable feed : nat -> list Qc.
  Variable opaque : nat -> list (list Qc) -> list Qc.
  Variable tables : nat -> option ulut.

  Definition fetch (ins : list (list Qc)) (o : option (nat * nat)) : result Qc :=
    match o with
    | None => Ok (qz 0)
    | Some (a, j) =>
      match nth_error ins a with
      | None => Raise
      | Some x => match nth_error x j with Some v => Ok v | None => Raise end
      end
    end.
  Definition fetches (ins : list (list Qc)) (l : list (option (nat * nat))) : result (list Qc) := rseq (map (fetch ins) l).
  Definition from (a : nat) (o : option (nat * nat)) : bool := match o with Some (b, _) => Nat.eqb b a | None => false end.
  Definition from_pad (a : nat) (o : option (nat * nat)) : bool := match o with Some (b, _) => Nat.eqb b a | None => true end.
  Definition demand (b : bool) (r : result Qc) : result Qc := if b then r else Raise.

  Definition element (kd : pkind) (nin : nat) (ins : list (list Qc)) (r : recipe) : result Qc :=
    rbind (fetches ins (r_src r)) (fun xs =>
    match kd with
    | NFpq q =>
      match xs, nth_error s q with
      | [x], Some o =>
        match nth_error (data (cfgs o)) (r_ch r) with
        | Some c => demand (Nat.eqb nin 1 && forallb (from 0) (r_src r)) (gfixed_quantizer x (kn c) (bits c) (ints c) (rnd_name o) (sat_name o))
        | None => Raise
        end
      | _, _ => Raise
      end
    | NKernel kernel div bias =>
      let u := Z.of_nat (r_ch r) in
      demand (Nat.eqb nin 1 && forallb (from_pad 0) (r_src r) && Z.ltb u div && Nat.eqb (List.length xs) (List.length (column kernel div u)))
        (match bias with
         | None => Ok (dotq (column kernel div u) xs + qz 0)%Qc
         | Some l => match nth_error l (r_ch r) with Some b => Ok (dotq (column kernel div u) xs + b)%Qc | None => Raise end
         end)
    | NAvg pool => demand (Nat.eqb nin 1 && forallb (from 0) (r_src r) && Z.eqb (Z.of_nat (List.length xs)) (fold_left Z.mul pool 1)) (Ok (qsum xs / qz (Z.of_nat (List.length xs)))%Qc)
    | NAdd => demand (Nat.eqb (List.length (r_src r)) nin && forallb (fun p => from (fst p) (snd p)) (combine (seq 0 nin) (r_src r))) (Ok (qsum xs))
    | NSub => match xs with [x; y] => demand (Nat.eqb nin 2 && forallb (fun p => from (fst p) (snd p)) (combine (seq 0 2) (r_src r))) (Ok (x - y)%Qc) | _ => Raise end
    | NDot =>
      rbind (fetches ins (r_src2 r)) (fun ys =>
      demand (Nat.eqb nin 2 && forallb (from 0) (r_src r) && forallb (from 1) (r_src2 r) && Nat.eqb (List.length xs) (List.length ys)) (Ok (dotq xs ys)))
    | NConcat => match xs with [x] => demand (forallb (fun o => match o with Some _ => true | None => false end) (r_src r)) (Ok x) | _ => Raise end
    | NReshape | NSelect => match xs with [x] => demand (Nat.eqb nin 1 && forallb (from 0) (r_src r)) (Ok x) | _ => Raise end
    | _ => Raise
    end).

  (** The output tensor of layer n. *)
  Definition layer_out (n : nat) (kd : pkind) (ins : list (list Qc)) : result (list Qc) :=
    match kd with
    | NInput => Ok (feed n)
    | NAct ASoftmax _ | NActL true _ | NUnknown => Ok (opaque n ins)
    | NAct _ func | NActL false func => match ins with [x] => Ok (map func x) | _ => Raise end
    | NLut _ => match ins, tables n with [x], Some l => rseq (map (lut_call l) x) | _, _ => Raise end
    | _ => rseq (map (element kd (List.length ins) ins) (geo n))
    end.

  Definition inputs_of (env : list (list Qc)) (ps : list nat) : result (list (list Qc)) :=
    rseq (map (fun p => match nth_error env p with Some x => Ok x | None => Raise end) ps).
  (** The outputs of all layers, in order; [env] are those computed already. *)
  Fixpoint run (net : pnet) (env : list (list Qc)) : result (list (list Qc)) :=
    match net with
    | [] => Ok env
    | (kd, ps) :: net' =>
      rbind (inputs_of env ps) (fun ins =>
      rbind (layer_out (List.length env) kd ins) (fun y => run net' (env ++ [y])%list))
    end.
End Run.

(** The opaque layers and the inputs deliver floats, softmax between 0 and 1. *)
Definition honest (net : pnet) (feed : nat -> list Qc) (opaque : nat -> list (list Qc) -> list Qc) : Prop :=
  (forall n, Forall float_value (feed n)) /\
  (forall n ins, Forall float_value (opaque n ins)) /\
  (forall n kd ps f ins, nth_error net n = Some (kd, ps) -> kd = NAct ASoftmax f \/ kd = NActL true f -> Forall (fun y => (qz 0 <= y)%Qc /\ (y <= qz 1)%Qc) (opaque n ins)).

(** The network in which the layers that have a table are lookups. *)
Definition with_tables (net : pnet) (tables : nat -> option ulut) : pnet :=
  map (fun p => match tables (fst p) with Some l => (NLut (lut_out l), snd (snd p)) | None => snd p end) (combine (seq 0 (List.length net)) net).

(** A table that may replace layer n: an activation reading one layer; either
    the table gives the activation's values, or the layer is read by quantizers
    only, whose results do not change. *)
Definition quant (o : fpq unit) (c : qcfg) (y : Qc) : result Qc := gfixed_quantizer y (kn c) (bits c) (ints c) (rnd_name o) (sat_name o).
Definition table_ok (net : pnet) (s : pst) (n : nat) (l : ulut) : Prop :=
  exists (a : activ) (func : Qc -> Qc) (p : nat), nth_error net n = Some (NAct a func, [p]) /\ a <> ASoftmax /\
    (forall x, value net s p x -> exists y, lut_call l x = Ok y) /\
    ((forall x, value net s p x -> lut_call l x = Ok (func x)) \/
     forall m kd ps, nth_error net m = Some (kd, ps) -> In n ps -> ps = [n] /\ exists q, kd = NFpq q /\
       forall o c x, nth_error s q = Some o -> In c (data (cfgs o)) -> value net s p x -> rbind (lut_call l x) (quant o c) = quant o c (func x)).

(** Layer n is read by layers that ask for at least its own precision, or by
    one quantizer that treats all elements alike, or by
    several (or one that does not), all truncating or rounding half up, and
    either the precision requested covers the layer's own or they wrap around
    within the requested range. *)
Definition demanding_readers (fuel : nat) (net : pnet) (s : pst) (n : nat) : Prop :=
  fusible_result net n s = Ok None /\
  exists k0 i0 f0 k1 i1 f1, produced fuel net n s = Ok ((k0, i0, f0), s) /\ requested fuel net n s = Ok (k1, i1, f1) /\
    0 <= i0 + f0 /\ i0 <= i1 /\ f0 <= f1.
Definition one_reader (net : pnet) (s : pst) (n : nat) : Prop :=
  exists m q o, out_layers net n = [m] /\ nth_error net m = Some (NFpq q, [n]) /\ nth_error s q = Some o /\ legal_fpq o /\ heterogeneous o = false.
Definition mild_readers (fuel : nat) (net : pnet) (s : pst) (n : nat) : Prop :=
  fusible_result net n s = Ok None /\
  exists k0 i0 f0 k1 i1 f1 k i f, produced fuel net n s = Ok ((k0, i0, f0), s) /\ requested fuel net n s = Ok (k1, i1, f1) /\
    merge_precision (k0, i0, f0) (k1, i1, f1) = (k, i, f) /\ 0 <= i + f /\
    forall m kd ps, nth_error net m = Some (kd, ps) -> In n ps -> ps = [n] /\ exists q, kd = NFpq q /\
      forall o, nth_error s q = Some o -> legal_fpq o /\ (rnd_name o = "TRN" \/ rnd_name o = "RND")%string /\
        forall c, In c (data (cfgs o)) -> i0 <= i1 \/ (sat_name o = "WRAP"%string /\ (k0 = 1 \/ kn c = 0 \/ ints c - kn c < i1)).
Definition good_readers (fuel : nat) (net : pnet) (s : pst) (n : nat) : Prop :=
  (forall p k i f, (exists kd, nth_error net n = Some (kd, [p])) -> produced fuel net p s = Ok ((k, i, f), s) -> f <= 1074) /\
  (demanding_readers fuel net s n \/ one_reader net s n \/ mild_readers fuel net s n).

(** The table of layer n in the list of tables. *)
Definition table_of (tabs : list (nat * ulut)) (n : nat) : option ulut :=
  match find (fun t => Nat.eqb (fst t) n) tabs with Some t => Some (snd t) | None => None end.
