(** Firmware in the types as registered layer by layer: from the registration
    to the hypotheses of StagedP. *)
From Coq Require Import ZArith Qcanon List Bool String Permutation Lia Arith.
From Verif Require Import Base.Num Base.NumFacts Base.Tensor Model.FixedPoint Model.Precision Model.Register Model.Lut Spec.Fixed Spec.Precision Spec.NetEval Spec.Firmware Spec.Quiet Spec.Staged.
From Verif Require Import Proofs.FitsP Proofs.PrecisionP Proofs.SoundP Proofs.NetEvalP Proofs.IdemP Proofs.RegisterP Proofs.FirmwareP Proofs.QuietP Proofs.StageP Proofs.StagedP.
Import ListNotations.
Open Scope Z_scope.

Lemma staged_firmware fuel net names s ov s' ov' geo feed opaque confs sizes stage tables adder out :
  topological net -> own_quantizers net -> Forall nice s -> Forall low s -> Forall low s' -> Forall plain_fpq s ->
  register_all (S fuel) net names None (s, ov) = Ok (s', ov') ->
  all_fine net s' -> honest net feed opaque -> proper_tables net tables ->
  (forall m q ps fu t o, nth_error net m = Some (NFpq q, ps) -> nth_error s q = Some o -> produced fu net m s' = Ok (t, s') -> shrinks_evenly o t) ->
  same_fusion net s s' ->
  (forall n kd ps, nth_error net n = Some (kd, ps) -> registered_at (S fuel) net names (s, ov) n (confs n) (sizes n) (stage n)) ->
  (forall n kd ps, nth_error net n = Some (kd, ps) -> synthesized (S fuel) net (stage n) tables n) -> adding adder ->
  run s geo feed opaque tables net [] = Ok out -> quiet net s geo out ->
  exists out', fw_run net s' geo feed opaque (fun n => type_named (confs n)) sizes tables adder net [] = Ok out' /\ List.length out' = List.length out /\
    forall n, removed net s' n = true \/ (exists t ps, nth_error net n = Some (NLut t, ps)) \/ ((forall ps, nth_error net n <> Some (NInput, ps)) /\ demanding_readers (S fuel) net (stage n) n) -> nth_error out' n = nth_error out n.
Proof.
  intros T OQ N L L' PL RG AF HH TB EV SF RA SY AD R Q.
  destruct (register_reduced net s T OQ N (S fuel) names None ov s' ov' L' RG) as (RO & N' & LE).
  pose proof (proj1 (quiet_same net s s' geo feed opaque tables HH AF TB N L PL RO EV out R Q)) as R'.
  assert (FACTS : forall n kd ps, nth_error net n = Some (kd, ps) -> _) by (intros n kd ps En; exact (stage_facts (S fuel) net names s ov s' ov' T OQ N L' RG n kd ps _ _ _ En (RA n kd ps En))).
  assert (FINE : forall n kd ps, nth_error net n = Some (kd, ps) -> all_fine net (stage n)) by (intros n kd ps En; exact (stage_fine (S fuel) net names s ov s' ov' T OQ N L' RG n kd ps _ _ _ AF En (RA n kd ps En))).
  apply (staged_same fuel net s s' stage geo feed opaque confs sizes tables adder out); try assumption.
  - intros n kd ps En NL. destruct (FACTS n kd ps En) as (_ & _ & _ & _ & _ & _ & HC). exact (HC NL).
  - intros n kd ps m En. unfold removed. destruct (nth_error net m) as [[km pm]|] eqn:Em; [|reflexivity]. destruct km; try reflexivity. destruct pm as [|p [|? ?]]; try reflexivity.
    destruct (between (S fuel) net names s ov s' ov' T OQ N L' RG n kd ps _ _ _ m q [p] En (RA n kd ps En) Em) as [E|E]; rewrite E; [|reflexivity].
    pose proof (forall2_nth _ _ _ LE q) as X. destruct (nth_error s' q) as [o'|] eqn:E', (nth_error s q) as [o|] eqn:E0; try contradiction; [|reflexivity].
    rewrite (SF m q [p] o o' Em E0 E'). reflexivity.
  - intros p kd ps m q Ep Em. destruct (FACTS p kd ps Ep) as (_ & _ & _ & _ & _ & A & _). apply (A m q [p]); [|exact Em].
    assert (I : In m (out_layers net p)) by (apply in_out; exists (NFpq q), [p]; cbn; auto). apply in_out, (feeds_lt _ _ _ T) in I. lia.
  - intros p kd ps m q Ep Em. destruct (RO m q [p] Em) as [E|(p0 & fu & t & o & r & o' & E0 & P0 & S0 & F0 & E2 & P2)]; [left; exact E|right].
    assert (p0 = p) by congruence. subst p0. exists t, o, r, o'. destruct (FACTS p kd ps Ep) as (_ & _ & _ & _ & K & _ & _).
    split; [intros fu' u HP; pose proof (produced_agree _ _ _ _ _ _ _ (K _ _ _ HP) P0); congruence|].
    do 3 (split; [assumption|]). split; [eapply EV; eauto|]. split; [exact (Forall_nth _ _ _ _ N S0)|]. split; [exact (Forall_nth _ _ _ _ L S0)|exact (Forall_nth _ _ _ _ PL S0)].
  - intros n kd ps En. destruct (FACTS n kd ps En) as (_ & Lst & R1 & _ & K & _ & _).
    assert (EVn : forall m q ps0 fu t o, nth_error net m = Some (NFpq q, ps0) -> nth_error s q = Some o -> produced fu net m (stage n) = Ok (t, stage n) -> shrinks_evenly o t) by (intros m q ps0 fu t o Em Eo HP; eapply EV; eauto).
    pose proof (proj1 (quiet_same net s (stage n) geo feed opaque tables HH (FINE n kd ps En) TB N L PL R1 EVn out R Q)) as Rn.
    exact (run_value_t (stage n) geo feed opaque tables net HH (entries' net (stage n) tables (FINE n kd ps En) TB) net [] [] out eq_refl eq_refl ltac:(intros [|?] ? ?; discriminate) Rn).
Qed.
