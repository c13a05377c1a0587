(** C38, C94: which values of cover_factor are accepted, and what the ones up to 1 do. *)
From Coq Require Import ZArith QArith Qcanon List Bool Lia.
From Verif Require Import Base.Num Base.NumFacts Base.Tensor Base.Compute Model.FixedPoint Model.Quantizer Model.Layers Model.Graph Model.Convert Model.Trace
  Model.Float32 Model.FloatLayer Model.FloatNet Spec.Fixed Spec.Quant Spec.History Spec.Layer Spec.Graph Spec.Trace
  Proofs.CallP Proofs.LayersP Proofs.FactorsP Proofs.NarrowP Props.P_Trace.
Import ListNotations.
Local Open Scope nat_scope.

(** When the layers have recorded ranges, exactly the positive factors are accepted (others fail the assertion). *)
Theorem C38_factors : forall pw ln2 m c st, Forall obj_ok st ->
  (forall i, In i (top_layers m) -> exists o, nth_error st i = Some o /\
     forall g, g < length (data (q_fbw (l_paq (o_layer o)))) -> exists mn mx, holds_range (l_paq (o_layer o)) g mn mx) ->
  ((exists st', cover_step pw ln2 m c st = Ok st') <-> (qz 0 < c)%Qc).
Proof. exact cover_step_iff. Qed.
Print Assumptions C38_factors.

(** The same in IEEE single precision. *)
Theorem C94_factors : forall m c st, Forall obj_ok st ->
  (forall i, In i (top_layers m) -> exists o, nth_error st i = Some o /\
     forall g, g < length (data (q_fbw (l_paq (o_layer o)))) -> exists mn mx, holds_range (l_paq (o_layer o)) g mn mx) ->
  ((exists st', cover_step32 m c st = Ok st') <-> (qz 0 < c)%Qc).
Proof. exact cover_step32_iff. Qed.
Print Assumptions C94_factors.

(** A factor of at most 1 keeps the range inside the recorded one and never turns it around. *)
Theorem C38_narrows : forall pw ln2 c o o', obj_ok o -> (qz 0 < c)%Qc -> (c <= qz 1)%Qc -> cover_obj pw ln2 c o = Ok o' ->
  forall g r mn mx, g < length (data (q_fbw (l_paq (o_layer o)))) -> frac_bits (l_paq (o_layer o)) g r ->
    holds_range (l_paq (o_layer o)) g mn mx -> on_grid r mn -> on_grid r mx -> (mn <= mx)%Qc ->
    exists mn' mx', holds_range (l_paq (o_layer o')) g mn' mx' /\ on_grid r mn' /\ on_grid r mx' /\ (mn <= mn')%Qc /\ (mn' <= mx')%Qc /\ (mx' <= mx)%Qc.
Proof. exact cover_narrows. Qed.
Print Assumptions C38_narrows.

(** The same in IEEE single precision, where the three roundings of a bound can neither leave the recorded range nor turn it around:
    for layers with at least 0 fractional bits whose range has at most 2^22 steps. *)
Theorem C94_narrows : forall c o, obj_ok o -> (qz 0 < c)%Qc -> (c <= qz 1)%Qc ->
  (forall g, g < length (data (q_fbw (l_paq (o_layer o)))) -> exists mn mx, holds_range (l_paq (o_layer o)) g mn mx) ->
  exists o', cover_obj32 c o = Ok o' /\
  forall g r mn mx, g < length (data (q_fbw (l_paq (o_layer o)))) -> frac_bits (l_paq (o_layer o)) g r -> (0 <= r <= 93)%Z ->
    holds_range (l_paq (o_layer o)) g mn mx -> on_grid r mn -> on_grid r mx -> (mn <= mx)%Qc -> (qabs mn <= pow2 (22 - r))%Qc -> (qabs mx <= pow2 (22 - r))%Qc ->
    exists mn' mx', holds_range (l_paq (o_layer o')) g mn' mx' /\ on_grid r mn' /\ on_grid r mx' /\ (mn <= mn')%Qc /\ (mn' <= mx')%Qc /\ (mx' <= mx)%Qc.
Proof. exact narrow32. Qed.
Print Assumptions C94_narrows.

(** One layer that has recorded [-5/4, 3/2] and [0, 2]: factor 1/2 narrows both ranges, with and without rounding; factor 0 raises. *)
Definition exk_m : klayer layer := Sub 1 [(Leaf (11, KH 0), [(0, 0)])] [(1, 0)].
Definition exk_show (r : result store) : result (list Qc) := rbind r (fun st => Ok (regs st)).
Example C38_factors_ex : forall pw ln2, Forall obj_ok [cov_obj] /\
  (forall i, In i (top_layers exk_m) -> exists o, nth_error [cov_obj] i = Some o /\
     forall g, g < length (data (q_fbw (l_paq (o_layer o)))) -> exists mn mx, holds_range (l_paq (o_layer o)) g mn mx) /\
  exk_show (cover_step pw ln2 exk_m (Q2Qc (1 # 2)) [cov_obj]) = Ok [Q2Qc (-1 # 2); Q2Qc (1 # 2); Q2Qc (3 # 4); Q2Qc (3 # 2)] /\
  exk_show (cover_step32 exk_m (Q2Qc (1 # 2)) [cov_obj]) = Ok [Q2Qc (-1 # 2); Q2Qc (1 # 2); Q2Qc (3 # 4); Q2Qc (3 # 2)] /\
  cover_step pw ln2 exk_m (qz 0) [cov_obj] = Raise /\ cover_step32 exk_m (qz 0) [cov_obj] = Raise.
Proof.
  intros. split; [repeat constructor; apply (C38_ex pw ln2)|]. split.
  { intros i [<-|[]]. exists cov_obj. split; [reflexivity|]. cbn. intros [|[|g]] Hg; [..|lia]; eexists _, _; split; reflexivity. }
  split; [qvm|]. split; [qvm|]. split; reflexivity.
Qed.
(** The same layer under C94_narrows, with the float32 next to 1/3. *)
Example C94_narrows_ex : obj_ok cov_obj /\ frac_bits (l_paq (o_layer cov_obj)) 0 2 /\ holds_range (l_paq (o_layer cov_obj)) 0 (Q2Qc (-5 # 4)) (Q2Qc (3 # 2)) /\
  on_grid 2 (Q2Qc (-5 # 4)) /\ on_grid 2 (Q2Qc (3 # 2)) /\ (qabs (Q2Qc (-5 # 4)) <= pow2 (22 - 2))%Qc /\ (qabs (Q2Qc (3 # 2)) <= pow2 (22 - 2))%Qc /\
  rbind (cover_obj32 (rn32 (Q2Qc (1 # 3))) cov_obj) (fun o => Ok (regs [o])) = Ok [Q2Qc (-1 # 4); Q2Qc (1 # 2); Q2Qc (1 # 2); Q2Qc (3 # 2)].
Proof.
  destruct (C38_ex (fun x => x) (qz 0)) as (H1 & H2 & H3 & H4 & H5 & _). repeat (split; [first [assumption|vm_compute; discriminate]|]). qvm.
Qed.
