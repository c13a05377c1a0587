(** Specification of what the standalone batch normalisation layer reports and keeps (C87, C88). *)
From Coq Require Import ZArith Qcanon List.
From Verif Require Import Base.Num Base.Tensor Model.Quantizer.
Import ListNotations.
Local Open Scope nat_scope.

(** The shape of the parameters when axis [1 + length pre] of the input (batch axis first) is normalised. *)
Definition on_axis (pre : list nat) (d : nat) (post : list nat) : list nat := repeat 1 (S (length pre)) ++ d :: repeat 1 (length post).

(** The limits of the bitwidths are in order. *)
Definition clip_ok (q : hgq) : Prop := match q_clip q with Some (lo, hi) => (lo <= hi)%Qc | None => True end.
