(** Vocabulary for C64: layers in use, and what batch-norm layers have to satisfy to be restored. *)
From Coq Require Import ZArith QArith Qcanon List Bool String.
From Verif Require Import Base.Num Base.Tensor Model.Quantizer Model.Layers Model.Conf Model.Serial.
Import ListNotations.

(** A layer after any amount of training and calibration: it was constructed and built, and since then only
    the values of its weights, its registers, beta and the adaptation flag have changed. *)
Definition in_use (geo_of : cls -> config -> list nat -> geometry) (o : obj) : Prop :=
  exists defaults cfg init a0 o0,
    fst defaults <> [] /\ snd defaults <> [] /\
    construct defaults (a_cls (o_args o)) cfg = Ok a0 /\ build geo_of init a0 (o_in o) = Ok o0 /\
    (let a := o_args o0 in
     o_args o = mkA (a_cls a) (a_keras a) (a_kq a) (a_paq a) (a_beta (o_args o)) (a_pf a) (a_mom a) (a_eps a) (a_center a) (a_scale a) (a_adapt (o_args o))) /\
    o_ki o = o_ki o0 /\ o_pi o = o_pi o0 /\
    map fst (o_w o) = map fst (o_w o0) /\ map (fun w => shape (snd w)) (o_w o) = map (fun w => shape (snd w)) (o_w o0) /\
    Forall (fun w => List.length (data (snd w)) = prodn (shape (snd w))) (o_w o).

(** The batch-norm parameters that get_config leaves out have their default values. *)
Definition bn_default (geo_of : cls -> config -> list nat -> geometry) (o : obj) : Prop :=
  is_bn (a_cls (o_args o)) = true ->
  a_eps (o_args o) = Q2Qc (1 # 1000) /\ a_scale (o_args o) = true /\
  (g_bias (geo geo_of o) <> None -> a_center (o_args o) = true).

(** The layer as it is right after minmax_reg_reset. *)
Definition uncalibrated (l : hlayer) : hlayer := mkL (l_op l) (minmax_reg_reset (l_paq l)) (l_relu l) (l_loc l) (l_out l).
