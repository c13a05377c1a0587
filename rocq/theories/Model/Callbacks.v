(** Model of the callback CalibratedBOPs (src/HGQ/bops/bops.py:42-54).  FreeBOPs and ResetMinMax are in Model/Trace.v. *)
From Coq Require Import ZArith Qcanon List Bool.
From Verif Require Import Base.Num Base.Tensor Model.FixedPoint Model.Quantizer Model.Layers Model.Graph Model.Trace.
Import ListNotations.
Local Open Scope nat_scope.

Section C.
  Variable pw : Qc -> Qc.
  Variable ln2 : Qc.
  Variable exact_bops : store -> nat -> result Qc.

  (** bsz = self.bsz or len(data), bops.py:52.  For a list of arrays ([as_list]) len is the number of arrays,
      otherwise the number of samples of the only array. *)
  Definition callback_bsz (as_list : bool) (data : list batch) (bsz : option nat) : nat :=
    match bsz with
    | None | Some 0 => if as_list then List.length data else List.length (hd [] data)
    | Some n => n
    end.

  (** on_epoch_end, bops.py:47-54, with the defaults of trace_minmax (bops.py:57) for the arguments not given:
      logs['bops'] and the objects afterwards. *)
  Definition calibrated_bops (m : klayer layer) (as_list : bool) (data : list batch) (bsz : option nat) (st : store) : result (Qc * store) :=
    rbind (trace_minmax pw ln2 exact_bops m data (callback_bsz as_list data bsz) true (qz 1) false st) (fun r => Ok (fst (fst r), snd r)).
End C.
