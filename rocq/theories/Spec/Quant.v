(** Specification vocabulary for the HGQ quantizer properties.  Independent of
    the model. *)
From Coq Require Import ZArith Qcanon List.
From Verif Require Import Base.Num Spec.Fixed.
Import ListNotations.
Open Scope Z_scope.

(** r is f rounded to nearest, ties to even. *)
Definition nearest_even (f : Qc) (r : Z) : Prop := nearest f r /\ (tie f -> Z.Even r).

(** y is x quantized with r fractional bits by truncation / by rounding to nearest, ties up. *)
Definition floor_on_grid (r : Z) (x y : Qc) : Prop :=
  on_grid r y /\ (y <= x)%Qc /\ (x < y + pow2 (- r))%Qc.
Definition round_on_grid (r : Z) (x y : Qc) : Prop :=
  on_grid r y /\ (x - pow2 (- r - 1) < y)%Qc /\ (y <= x + pow2 (- r - 1))%Qc.

(** e is the least / greatest number satisfying P, +inf / -inf if there is none. *)
Definition least (P : Qc -> Prop) (e : ext) : Prop :=
  ((forall v, ~ P v) /\ e = PosInf) \/ (exists v, P v /\ e = Fin v /\ forall u, P u -> (v <= u)%Qc).
Definition greatest (P : Qc -> Prop) (e : ext) : Prop :=
  ((forall v, ~ P v) /\ e = NegInf) \/ (exists v, P v /\ e = Fin v /\ forall u, P u -> (u <= v)%Qc).

(** v occurs at group g of a list of values laid out in rows of N groups. *)
Definition in_group (N g : nat) (l : list Qc) (v : Qc) : Prop :=
  exists j, nth_error l (j * N + g) = Some v.
