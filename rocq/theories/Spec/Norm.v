(** Specification vocabulary for batch normalisation. *)
From Coq Require Import ZArith Qcanon List Bool.
From Verif Require Import Base.Num Base.Tensor Model.Quantizer Model.Layers Model.BatchNorm.
Import ListNotations.

(** Batch normalisation of the value v of a channel. *)
Definition normalised (gamma beta mean var eps : Qc) (rsqrt : Qc -> Qc) (v : Qc) : Qc :=
  (gamma * (v - mean) * rsqrt (var + eps) + beta)%Qc.

(** The operator uses, for an output of channel c, only kernel entries whose last
    coordinate is c: true for dense layers and for (grouped) convolutions. *)
Definition channelled (ts : taps) (kernel : tensor Qc) (loc : Z) (out : list nat) : Prop :=
  (0 < last (shape kernel) 1)%nat /\
  forall e ps, nth_error ts e = Some ps ->
    Forall (fun ab => Nat.modulo (snd ab) (last (shape kernel) 1%nat) = chan loc out e) ps.

(** Arithmetic mean and (population) variance, by their defining equations. *)
Definition is_mean (l : list Qc) (m : Qc) : Prop := (qz (Z.of_nat (length l)) * m = fold_right Qcplus (qz 0) l)%Qc.
Definition is_var (l : list Qc) (v : Qc) : Prop :=
  exists m, is_mean l m /\ is_mean (map (fun x => (x - m) * (x - m))%Qc l) v.

(** All the values of one channel in a batch of samples. *)
Definition in_channel (loc : Z) (out : list nat) (c : nat) (z : sample) : list Qc :=
  flat_map (fun e => if Nat.eqb (chan loc out e) c then [nth e z (qz 0)] else []) (seq 0 (length z)).
Definition channel_values (loc : Z) (out : list nat) (zs : list sample) (c : nat) : list Qc :=
  flat_map (in_channel loc out c) zs.

(** A quantizer whose training values are its inference values. *)
Definition deterministic (q : hgq) : Prop := q_exact q = true /\ (q_strategy q = 0%Z \/ q_strategy q = 3%Z).

Local Open Scope nat_scope.
(** The moving statistics are the statistics of the batch: of the values vs of W x
    in each channel (the mean shifted by the bias). *)
Definition stats_match (l : bnlayer) (xs : list (list sample)) : Prop :=
  forall c, c < n_chan l ->
    let vs := channel_values (b_loc l) (b_out l) (map (fun x => linop (b_ts l) (data (b_kernel l)) (hd [] x)) xs) c in
    vs <> [] /\
    (b_center l = true -> exists b m, b_bias l = Some b /\ is_mean vs m /\ nth c (b_mean l) (qz 0) = (m + nth c (data b) (qz 0))%Qc) /\
    (b_scale l = true -> is_var vs (nth c (b_var l) (qz 0))).

(** Layers on which training and inference use the same formula. *)
Definition same_mode (l : bnlayer) : Prop :=
  0 < n_chan l /\ length (b_mean l) = n_chan l /\ length (b_var l) = n_chan l /\
  match b_bias l with
  | None => b_center l = false
  | Some b => b_center l = true /\ b_scale l = true /\ b_bias_loc l = b_loc l /\
      (forall c, c < n_chan l -> nth c (b_beta l) (qz 0) = qz 0)
  end.

