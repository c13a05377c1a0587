(** What has to hold for a proxy model to survive saving. *)
From Coq Require Import ZArith Qcanon List.
From Verif Require Import Base.Num Base.Tensor Model.FixedPoint Model.Precision Model.Register Model.Lut Model.SaveProxy Model.SaveNet.
Import ListNotations.
Local Open Scope Z_scope.

(** Every quantizer of the store is one layer of the model and reads one layer. *)
Definition placed (net : pnet) (s : pst) : Prop :=
  forall q o, nth_error s q = Some o -> exists n p, nth_error net n = Some (NFpq q, [p]) /\
    forall n' ps', nth_error net n' = Some (NFpq q, ps') -> n' = n.
(** Sign flags are 0 or 1; no width is negative. *)
Definition flags (o : fpq unit) : Prop := forall c, In c (data (cfgs o)) -> kn c = 0 \/ kn c = 1.
Definition widths (o : fpq unit) : Prop := forall c, In c (data (cfgs o)) -> 0 <= bits c.
(** The quantizer with its negative widths set to 0. *)
Definition no_negative (o o' : fpq unit) : Prop :=
  rnd_name o' = rnd_name o /\ sat_name o' = sat_name o /\ shape (cfgs o') = shape (cfgs o) /\
  data (cfgs o') = map (fun c => mkCfg (kn c) (Z.max (bits c) 0) (ints c)) (data (cfgs o)).
(** Lookup layers made with a table that has an entry for every input, allowed by the process that loads them. *)
Definition loadable (limit : Z) (ls : list (nat * ulayer)) : Prop :=
  forall n l, In (n, l) ls -> exists lim R S t,
    ulut_new lim (u_in l) (u_out l) R S (Some t) = Ok l /\ Z.of_nat (length t) = 2 ^ width (u_in l) /\
    (limit <= 0 \/ 2 ^ width (u_in l) < limit).
