(** Vocabulary for C84: which events adapt the bitwidths. *)
From Coq Require Import ZArith Qcanon List Bool String.
From Verif Require Import Base.Num Base.Tensor Model.Quantizer Model.Layers Model.Conf Model.BatchNorm Model.Serial Model.Tracing Spec.Norm Spec.Adapt.
Import ListNotations.

(** python executes forward with training=True. *)
Definition passes_python (e : event) : Prop := match e with Trace | Eager _ => True | _ => False end.
(** After history h, event e adapts the bitwidths: it is the first call of all, or a run of
    the graph traced before anything else was traced or called. *)
Definition adapts (h : list event) (e : event) : Prop :=
  match e with
  | Eager _ => Forall (fun e' => ~ passes_python e') h
  | Run n _ => n = 0%nat /\ exists h1 h2, h = (h1 ++ Trace :: h2)%list /\ Forall (fun e' => ~ passes_python e') h1
  | _ => False
  end.
Definition inputs (e : event) : option (list (list (list Qc))) := match e with Run _ xs | Eager xs => Some xs | _ => None end.
Definition updates (e : event) : Prop := match e with Update _ => True | _ => False end.

(** The same layer before its first training call. *)
Definition untrained (o : obj) : obj := with_flag o true.

(** b moved k times by l. *)
Definition moved (b : Qc) (k : nat) (l : ext) : ext := match l with Fin v => Fin (b + qz (Z.of_nat k) * v)%Qc | x => x end.
(** The factors of the channels the weights are adapted to on batch xs: 1 without scale, else
    gamma / sqrt(variance + epsilon) with the variances of the outputs of the layer at 32 bits. *)
Definition factors (geo_of : cls -> config -> list nat -> geometry) (exact_of : dict -> bool) (clip_of : dict -> option (Qc * Qc)) (rsqrt pw : Qc -> Qc) (ln2 : Qc)
  (o : obj) (i : qinfo) (xs : list (list (list Qc))) (sc : nat -> Qc) : Prop :=
  if a_scale (o_args o)
  then exists zs l', hforward pw ln2 (bn_hlayer rsqrt (full_width (bn_of geo_of exact_of clip_of o i))) xs false false (fun _ => qz 0) (fun _ => qz 0) (fun _ => qz 0) = Ok (zs, l') /\
       exists v, (forall c, (c < last (shape (weight o "kernel")) 1)%nat ->
            channel_values (g_loc (geo geo_of o)) (g_out (geo geo_of o)) zs c <> [] /\ is_var (channel_values (g_loc (geo geo_of o)) (g_out (geo geo_of o)) zs c) (v c)) /\
       sc = (fun c => nth c (data (weight o "bn_gamma")) (qz 0) * rsqrt (v c + a_eps (o_args o)))%Qc
  else sc = (fun _ => qz 1).
