(** Model of training HDenseBatchNorm in graphs (src/HGQ/layers/dense.py:159-163):
    under tf.function, which keras.Model.fit uses, the python statements of
    forward run once, when the graph is traced, and the operations on tensors
    they issue are recorded and executed whenever the graph is run. *)
From Coq Require Import ZArith Qcanon List Bool String.
From Verif Require Import Base.Num Base.Tensor Model.Quantizer Model.Layers Model.Conf Model.BatchNorm Model.Serial.
Import ListNotations.

(** What happens to a layer: a graph of a training call is traced, graph n (in
    the order of tracing) is run, the layer is called in training without a
    graph, or its variables are changed (optimizer, moving statistics,
    assignments). (base.py:145-155; keras traces the call) *)
Inductive event : Type :=
| Trace
| Run (n : nat) (xs : list (list (list Qc)))
| Eager (xs : list (list (list Qc)))
| Update (f : string -> tensor Qc -> tensor Qc).

Section T.
  Variable geo_of : cls -> config -> list nat -> geometry.
  Variable exact_of : dict -> bool.
  Variable clip_of : dict -> option (Qc * Qc).
  Variable rsqrt pw : Qc -> Qc.
  Variable ln2 : Qc.
  Variable lg : Qc -> Qc.
  Variable i : qinfo.

  (** self._do_adapt_kernel_bits = False, dense.py:163 *)
  Definition with_flag (o : obj) (flag : bool) : obj :=
    let a := o_args o in
    mkO (mkA (a_cls a) (a_keras a) (a_kq a) (a_paq a) (a_beta a) (a_pf a) (a_mom a) (a_eps a) (a_center a) (a_scale a) flag)
        (o_in o) (o_ki o) (o_pi o) (o_w o) (o_min o) (o_max o).
  (** The operations on tensors of adapt_fused_bn_kernel_bw_bits, batchnorm_base.py:112-126
      (dense.py:162), and the clip of the bitwidths at the next call of the quantizer
      (quantizer.py:141-142). *)
  Definition adapt_ops (o : obj) (xs : list (list (list Qc))) : result obj :=
    rbind (adapt_fused_bn rsqrt pw ln2 lg (bn_of geo_of exact_of clip_of o i) xs) (fun t =>
    rbind (clipped (clip_of (a_kq (o_args o))) t) (fun f => Ok (with_weights o (put (o_w o) "kernel_bw" f)))).

  (** The layer and, for every graph traced so far, whether it contains the adaptation.
      Simplified: tracing does not fail (an adaptation that fails, fails when run).
    (dense.py:161-163) *)
  Definition tstate : Type := obj * list bool.
  (** dense.py:161-163 *)
  Definition event_step (s : tstate) (e : event) : result tstate :=
    let '(o, graphs) := s in
    match e with
    | Trace =>
        let adapts := (a_adapt (o_args o) && delayed (a_cls (o_args o)))%bool in
        Ok (if adapts then with_flag o false else o, graphs ++ [adapts])%list
    | Run n xs =>
        match nth_error graphs n with
        | None => Raise
        | Some true => rbind (adapt_ops o xs) (fun o' => Ok (o', graphs))
        | Some false => Ok (o, graphs)
        end
    | Eager xs => rbind (first_training_call geo_of exact_of clip_of rsqrt pw ln2 lg o i xs) (fun o' => Ok (o', graphs))
    | Update f => Ok (with_weights o (map (fun e => (fst e, f (fst e) (snd e))) (o_w o)), graphs)
    end.
  (** A history of events. (dense.py:159-177) *)
  Fixpoint events (h : list event) (s : tstate) : result tstate :=
    match h with
    | [] => Ok s
    | e :: h' => rbind (event_step s e) (fun s' => events h' s')
    end.
End T.
