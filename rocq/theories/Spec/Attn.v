(** Specification vocabulary for multi-head attention: formulas on functions of indices. *)
From Coq Require Import ZArith Qcanon List Bool.
From Verif Require Import Base.Num Base.Tensor Model.Attn Spec.Bops.
Import ListNotations.
Local Open Scope nat_scope.

(** A tensor of shape [n1; n2; n3] and its elements. *)
Definition tensor3 {A} (t : tensor A) (n1 n2 n3 : nat) : Prop := shape t = [n1; n2; n3] /\ length (data t) = n1 * n2 * n3.
Definition elem3 {A} (d : A) (t : tensor A) (n2 n3 i j k : nat) : A := nth ((i * n2 + j) * n3 + k) (data t) d.

(** A dense layer with n inputs and u outputs, and one of its outputs for the inputs x_0 .. x_(n-1). *)
Definition dense_of (d : kdense) (use_bias : bool) (n u : nat) : Prop :=
  kd_in d = n /\ kd_units d = u /\ length (kd_kernel d) = n * u /\
  match kd_bias d with Some b => use_bias = true /\ length b = u | None => use_bias = false end.
Definition dense_out (d : kdense) (x : nat -> Qc) (c : nat) : Qc :=
  (qsum_to (kd_in d) (fun t => x t * nth (t * kd_units d + c) (kd_kernel d) (qz 0)) + match kd_bias d with Some b => nth c b (qz 0) | None => qz 0 end)%Qc.

(** The layers of the attention layer fit inputs of these widths. *)
Definition attn_fits (a : attn) (w : attn_w) (dq dk dv : nat) : Prop :=
  dense_of (to_q w) (at_bias a) dq (at_kd a * at_heads a) /\ dense_of (to_k w) (at_bias a) dk (at_kd a * at_heads a) /\
  dense_of (to_v w) (at_bias a) dv (at_vd a * at_heads a) /\ dense_of (to_out w) (at_bias a) (at_vd a * at_heads a) dv.

(** What a mask adds to the score of a query and a key. *)
Definition mask_at (m : option mask) (nq nk b i j : nat) : Qc :=
  match m with
  | None => qz 0
  | Some (MBool t) => if elem3 true t nq nk b i j then qz 0 else qz (-1000000000)
  | Some (MNum t) => elem3 (qz 0) t nq nk b i j
  end.
Definition mask_fits (m : option mask) (n nq nk : nat) : Prop :=
  match m with None => True | Some (MBool t) => tensor3 t n nq nk | Some (MNum t) => tensor3 t n nq nk end.

(** The score of query vector x and key vector y in head h. *)
Definition score (sq : Qc -> Qc) (a : attn) (w : attn_w) (h : nat) (x y : nat -> Qc) : Qc :=
  (qsum_to (at_kd a) (fun t => dense_out (to_q w) x (h * at_kd a + t) * dense_out (to_k w) y (h * at_kd a + t)) / sq (qz (Z.of_nat (at_kd a))))%Qc.

(** Weights proportional to ex of the scores, the largest score being subtracted before. *)
Definition softmax_of (ex : Qc -> Qc) (n : nat) (s : nat -> Qc) (p : nat -> Qc) : Prop :=
  exists m, (exists j, j < n /\ m = s j) /\ (forall j, j < n -> (s j <= m)%Qc) /\
    forall j, j < n -> (p j * qsum_to n (fun j' => ex (s j' - m)) = ex (s j - m))%Qc.

(** The layers used by a call: those of the first call, which makes them to fit. *)
Definition uses (fresh : nat -> nat -> list Qc) (a : attn) (dq dk dv : nat) (w : attn_w) : Prop :=
  at_w a = Some w \/ (at_w a = None /\ w = attn_build fresh a dq dk dv).

(** A permutation of 0 .. n - 1. *)
Definition permutes (n : nat) (f : nat -> nat) : Prop := (forall j, j < n -> f j < n) /\ (forall i j, i < n -> j < n -> f i = f j -> i = j).
