(** Proofs for the values of cover_factor (C38, C94). *)
From Coq Require Import ZArith QArith Qcanon List Bool Lia.
From Verif Require Import Base.Num Base.NumFacts Base.Tensor Model.FixedPoint Model.Quantizer Model.Layers Model.Graph Model.Convert Model.Trace
  Model.Float32 Model.FloatLayer Model.FloatNet Spec.Fixed Spec.Quant Spec.History Spec.Layer Spec.Graph Spec.Trace
  Proofs.CallP Proofs.TraceP Proofs.TraceMinmaxP Proofs.CoverP Proofs.FloatCoverP.
Import ListNotations.
Local Open Scope nat_scope.

Lemma cover_total32 c o : obj_ok o -> (forall g, g < length (data (q_fbw (l_paq (o_layer o)))) -> exists mn mx, holds_range (l_paq (o_layer o)) g mn mx) ->
  exists o', cover_obj32 c o = Ok o'.
Proof.
  intros Hok H. destruct (obj_ok_len o Hok) as [N1 N2].
  destruct (finite_total (q_min (l_paq (o_layer o))) PosInf) as [mn E1].
  { intros g Hg. rewrite N1 in Hg. destruct (H g Hg) as [a [b [A _]]]. eauto. }
  destruct (finite_total (q_max (l_paq (o_layer o))) NegInf) as [mx E2].
  { intros g Hg. rewrite N2 in Hg. destruct (H g Hg) as [a [b [_ B]]]. eauto. }
  eexists. apply (cover32_value c o mn mx Hok E1 E2).
Qed.

Lemma not_one_pos c : qltb (qz 0) c = true <-> (qz 0 < c)%Qc.
Proof. apply qltb_true. Qed.

Section F.
Variable pw : Qc -> Qc.
Variable ln2 : Qc.

Lemma cover_step_iff m c st : Forall obj_ok st -> (forall i, In i (top_layers m) -> exists o, nth_error st i = Some o /\
    forall g, g < length (data (q_fbw (l_paq (o_layer o)))) -> exists mn mx, holds_range (l_paq (o_layer o)) g mn mx) ->
  ((exists st', cover_step pw ln2 m c st = Ok st') <-> (qz 0 < c)%Qc).
Proof.
  intros Hok H. unfold cover_step. destruct (qeqb c (qz 1)) eqn:E1.
  - split; [intros _|eauto]. assert (X : c = qz 1) by (apply qeqb_true, E1). rewrite X. reflexivity.
  - destruct (qltb (qz 0) c) eqn:E0.
    + split; [intros _; apply not_one_pos, E0|intros _]. apply each_ok; [apply top_NoDup|]. intros i Hi. destruct (H i Hi) as [o [Ho HR]].
      rewrite Forall_nth_error in Hok. destruct (cover_total pw ln2 c o (Hok i o Ho) HR) as [o' E]. eauto.
    + split; [intros [st' X]; discriminate|]. intros X. apply not_one_pos in X. congruence.
Qed.

Lemma cover_step32_iff m c st : Forall obj_ok st -> (forall i, In i (top_layers m) -> exists o, nth_error st i = Some o /\
    forall g, g < length (data (q_fbw (l_paq (o_layer o)))) -> exists mn mx, holds_range (l_paq (o_layer o)) g mn mx) ->
  ((exists st', cover_step32 m c st = Ok st') <-> (qz 0 < c)%Qc).
Proof.
  intros Hok H. unfold cover_step32. destruct (qeqb c (qz 1)) eqn:E1.
  - split; [intros _|eauto]. assert (X : c = qz 1) by (apply qeqb_true, E1). rewrite X. reflexivity.
  - destruct (qltb (qz 0) c) eqn:E0.
    + split; [intros _; apply not_one_pos, E0|intros _]. apply each_ok; [apply top_NoDup|]. intros i Hi. destruct (H i Hi) as [o [Ho HR]].
      rewrite Forall_nth_error in Hok. destruct (cover_total32 c o (Hok i o Ho) HR) as [o' E]. eauto.
    + split; [intros [st' X]; discriminate|]. intros X. apply not_one_pos in X. congruence.
Qed.

Lemma cover_lo_in c a b : (qz 0 <= c)%Qc -> (c <= qz 1)%Qc -> (a <= b)%Qc -> (a <= cover_lo c a b)%Qc /\ (cover_lo c a b <= cover_hi c a b)%Qc /\ (cover_hi c a b <= b)%Qc.
Proof.
  intros H0 H1 Hab. unfold cover_lo, cover_hi. rewrite !half_div.
  assert (W : (qz 0 <= (b - a) * qhalf)%Qc) by qlra.
  assert (A : (qz 0 <= (b - a) * qhalf * (qz 1 - c))%Qc) by (assert (qz 0 <= qz 1 - c)%Qc by qlra; generalize dependent ((b - a) * qhalf)%Qc; intros; qnra).
  assert (B : (qz 0 <= (b - a) * qhalf * c)%Qc) by (generalize dependent ((b - a) * qhalf)%Qc; intros; qnra).
  replace ((b - a) * qhalf * (qz 1 - c))%Qc with ((b - a) * qhalf - (b - a) * qhalf * c)%Qc in A by (change (qz 1) with 1%Qc; ring).
  generalize dependent ((b - a) * qhalf * c)%Qc. intros w A B. split; [|split]; qlra.
Qed.

Lemma quantized_mono q r x x' y y' : quantized q r x y -> quantized q r x' y' -> (x <= x')%Qc -> (y <= y')%Qc.
Proof.
  unfold quantized. pose proof (pow2_pos (- r)). pose proof (pow2_pos (- r - 1)). pose proof (half_step r).
  destruct (Z.eqb _ _); intros [G [A B]] [G' [A' B']] Hx; apply (grid_le_of_lt r); auto; qlra.
Qed.

Lemma cover_narrows c o o' : obj_ok o -> (qz 0 < c)%Qc -> (c <= qz 1)%Qc -> cover_obj pw ln2 c o = Ok o' ->
  forall g r mn mx, g < length (data (q_fbw (l_paq (o_layer o)))) -> frac_bits (l_paq (o_layer o)) g r ->
    holds_range (l_paq (o_layer o)) g mn mx -> on_grid r mn -> on_grid r mx -> (mn <= mx)%Qc ->
    exists mn' mx', holds_range (l_paq (o_layer o')) g mn' mx' /\ on_grid r mn' /\ on_grid r mx' /\ (mn <= mn')%Qc /\ (mn' <= mx')%Qc /\ (mx' <= mx)%Qc.
Proof.
  intros Hok H0 Hc E. destruct (cover_finite pw ln2 c o o' E) as [mn [mx [E1 E2]]].
  pose proof (cover_value pw ln2 c o mn mx Hok E1 E2) as E'. cbv zeta in E'. rewrite E in E'. injection E' as ->.
  destruct (finite_spec _ _ E1) as [S1 [L1 V1]]. destruct (finite_spec _ _ E2) as [S2 [L2 V2]].
  destruct (obj_ok_len o Hok) as [N1 N2].
  intros g r a b Hg Hr [Ha Hb] Ga Gb Hab.
  replace (l_paq (o_layer (with_paq o (with_minmax (l_paq (o_layer o)) _ _)))) with
    (with_minmax (l_paq (o_layer o)) (mkT (shape (q_min (l_paq (o_layer o)))) (reg_vals (l_paq (o_layer o)) (cover_lo c) mn mx))
      (mkT (shape (q_max (l_paq (o_layer o)))) (reg_vals (l_paq (o_layer o)) (cover_hi c) mn mx))) by reflexivity.
  assert (Ea : nth g (data mn) (qz 0) = a) by (rewrite (V1 g (qz 0)) in Ha by (unfold ngroups in *; lia); congruence).
  assert (Eb : nth g (data mx) (qz 0) = b) by (rewrite (V2 g (qz 0)) in Hb by (unfold ngroups in *; lia); congruence).
  unfold holds_range. cbn [with_minmax q_min q_max data]. rewrite !reg_vals_nth by assumption. rewrite Ea, Eb.
  pose proof (qval_quantized (l_paq (o_layer o)) _ (cover_lo c a b) r Hr) as Q1.
  pose proof (qval_quantized (l_paq (o_layer o)) _ (cover_hi c a b) r Hr) as Q2.
  destruct (cover_lo_in c a b (Qclt_le_weak _ _ H0) Hc Hab) as [C1 [C2 C3]].
  eexists _, _. split; [split; reflexivity|]. split; [eapply quantized_grid, Q1|]. split; [eapply quantized_grid, Q2|].
  split; [eapply quantized_ge; eassumption|]. split; [eapply quantized_mono; eassumption|eapply quantized_le; eassumption].
Qed.
End F.
