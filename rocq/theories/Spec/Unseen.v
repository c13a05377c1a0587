(** Specification vocabulary for data the model was not calibrated on. *)
From Coq Require Import Qcanon List Bool.
From Verif Require Import Base.Num Base.Tensor Model.Quantizer Model.Layers Model.Graph Model.Convert Model.Trace.
Import ListNotations.

(** record_minmax switched on in every layer (base.py:53). *)
Definition listening (st : store) : store := map (fun o => with_record o true) st.

(** The batch stays inside the calibrated ranges: calling the model on it with
    record_minmax switched on leaves every range as it was. *)
Definition inside (pw : Qc -> Qc) (ln2 : Qc) (m : klayer layer) (B : list (list (list Qc))) (st : store) : Prop :=
  exists ys, call_model pw ln2 m B (listening st) = Ok (ys, listening st).
