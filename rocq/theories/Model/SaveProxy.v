(** Saving and loading lookup tables (src/HGQ/proxy/unary_lut.py:16-83) and input signatures
    (src/HGQ/layers/passive_layers.py:33-78).

    Saving stores get_config() and the values of the layer's variables; loading calls the constructor with the
    configuration, builds the layer and assigns the values (keras, which is taken to track the variable "table" wherever it
    was created, as it tracks those of FixedPointQuantizer). *)
From Coq Require Import ZArith Qcanon List Bool String.
From Verif Require Import Base.Num Base.Tensor Model.FixedPoint Model.Layers Model.Precision Model.Lut.
Import ListNotations.
Local Open Scope Z_scope.

(** ** UnaryLUT *)

(** A UnaryLUT layer with both precisions; no table before build when none was given (unary_lut.py:25-34). *)
Record ulayer : Type := mkUL { u_in : kif; u_out : kif; u_table : option (list Qc) }.

Definition width (t : kif) : Z := let '(k, i, f) := t in k + i + f.

(** __init__, unary_lut.py:20-35; [limit] is LUT_SIZE_LIMITATION of the process. *)
Definition ulut_new (limit : Z) (kif_in kif_out : kif) (R S : string) (table : option (list Qc)) : result ulayer :=
  if negb (Z.ltb 0 (width kif_in)) then Raise
  else if negb (Z.ltb 0 (width kif_out)) then Raise
  else if (Z.ltb 0 limit && negb (Z.ltb (2 ^ width kif_in) limit))%bool then Raise
  else match table with
       | None => Ok (mkUL kif_in kif_out None)
       | Some t => let '(k, i, f) := kif_out in
                   rbind (quantize_table t k (k + i + f) (k + i) R S) (fun t => Ok (mkUL kif_in kif_out (Some t)))
       end.

(** build, unary_lut.py:44-49 *)
Definition ulut_build (l : ulayer) : ulayer :=
  match u_table l with
  | Some _ => l
  | None => mkUL (u_in l) (u_out l) (Some (repeat (qz 0) (Z.to_nat (2 ^ width (u_in l)))))
  end.

(** call, unary_lut.py:37-42: builds the layer first, then looks the entry up. *)
Definition ulut_call (l : ulayer) (x : Qc) : result Qc :=
  let l := ulut_build l in
  match u_table l with Some t => lut_call (mkLut (snd (u_in l)) (u_out l) t) x | None => Raise end.

(** get_config, unary_lut.py:77-83: neither the table nor the modes it was quantized with.  What is stored besides: the variable. *)
Definition ulut_save (l : ulayer) : kif * kif * list (list Qc) :=
  (u_in l, u_out l, match u_table l with Some t => [t] | None => [] end).
(** Loading: cls( **config ) with the default modes and no table, build, assign.
    (unary_lut.py:20-35, 44-49, 77-83) *)
Definition ulut_load (limit : Z) (s : kif * kif * list (list Qc)) : result ulayer :=
  let '(kin, kout, vars) := s in
  rbind (ulut_new limit kin kout "TRN" "WRAP" None) (fun l =>
  let l := ulut_build l in
  match u_table l, vars with
  | Some t, [v] => if Nat.eqb (List.length t) (List.length v) then Ok (mkUL (u_in l) (u_out l) (Some v)) else Raise
  | _, _ => Raise
  end).

(** ** Signature *)

(** Nested python lists of integers. (tolist() at passive_layers.py:75-77) *)
Inductive nested : Type := Num (z : Z) | Lst (l : list nested).

(** tolist of an array, passive_layers.py:75-77 *)
Fixpoint tolist (s : list nat) (d : list Z) : nested :=
  match s with
  | [] => Num (hd 0 d)
  | n :: s' => Lst (map (fun o => tolist s' (firstn (prodn s') (skipn (o * prodn s') d))) (seq 0 n))
  end.

(** tf.constant(v, dtype=tf.int8) of a number or nested lists, passive_layers.py:38-43: lists of different shape and
    numbers outside the type raise.  The shape of [] is (0,). *)
Fixpoint constant (v : nested) : result (tensor Z) :=
  match v with
  | Num z => if (Z.leb (-128) z && Z.leb z 127)%bool then Ok (mkT [] [z]) else Raise
  | Lst l =>
      rbind (rseq (map constant l)) (fun ts =>
      match ts with
      | [] => Ok (mkT [0%nat] [])
      | t0 :: _ => if forallb (fun t => if list_eq_dec Nat.eq_dec (shape t) (shape t0) then true else false) ts
                   then Ok (mkT (List.length ts :: shape t0) (flat_map data ts)) else Raise
      end)
  end.

(** An argument of the constructor: something with a shape is kept as it is (line 38). *)
Inductive sarg : Type := Array (t : tensor Z) | Plain (v : nested).
Definition to_array (a : sarg) : result (tensor Z) := match a with Array t => Ok t | Plain v => constant v end.

Record signature : Type := mkSig { s_neg : tensor Z; s_bits : tensor Z; s_int : tensor Z }.
(** __init__, passive_layers.py:36-47 *)
Definition sig_new (k b i : sarg) : result signature :=
  rbind (to_array k) (fun k => rbind (to_array b) (fun b => rbind (to_array i) (fun i => Ok (mkSig k b i)))).
(** build, passive_layers.py:49-53; [inp] is input_shape[1:] *)
Definition sig_build (s : signature) (inp : list nat) : result signature :=
  rbind (broadcast_to 0 (s_bits s) (1%nat :: inp)) (fun b =>
  rbind (broadcast_to 0 (s_int s) (1%nat :: inp)) (fun i =>
  rbind (broadcast_to 0 (s_neg s) (1%nat :: inp)) (fun k => Ok (mkSig k b i)))).
(** get_config, passive_layers.py:72-78 *)
Definition sig_config (s : signature) : nested * nested * nested :=
  let l t := tolist (shape t) (data t) in (l (s_neg s), l (s_bits s), l (s_int s)).
(** from_config and building the layer on the same input (passive_layers.py:36-53) *)
Definition sig_load (c : nested * nested * nested) (inp : list nat) : result signature :=
  let '(k, b, i) := c in rbind (sig_new (Plain k) (Plain b) (Plain i)) (fun s => sig_build s inp).
