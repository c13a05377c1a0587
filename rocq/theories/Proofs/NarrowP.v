(** cover_factor up to 1 in single precision (C94). *)
From Coq Require Import ZArith QArith Qcanon List Bool String Lia.
From Verif Require Import Base.Num Base.NumFacts Base.Tensor Model.FixedPoint Model.Quantizer Model.Layers Model.Graph
  Model.Convert Model.Trace Model.Float32 Model.FloatLayer Model.FloatNet Spec.Fixed Spec.Quant Spec.History Spec.Layer Spec.Graph Spec.Trace Spec.Prepared
  Spec.Float Proofs.FixedPointP Proofs.QuantizerP Proofs.Float32P Proofs.Float32Q
  Proofs.CallP Proofs.LayersP Proofs.TraceP Proofs.TraceMinmaxP Proofs.CoverP Proofs.TensorP Proofs.FloatCoverP.
Import ListNotations.
Local Open Scope Z_scope.

Lemma float_up x n : float32 x -> 0 <= n -> (qabs (x * pow2 n) < pow2 100)%Qc -> float32 (x * pow2 n)%Qc.
Proof.
  intros [m [e [-> [Hm He]]]] Hn U. rewrite <- Qcmult_assoc, <- pow2_add in *. destruct (Z.eq_dec m 0) as [->|N].
  - exists 0, 0. split; [rewrite qz_0; ring|lia].
  - exists m, (e + n). split; [reflexivity|]. split; [exact Hm|]. split; [lia|].
    rewrite qabs_scale, qabs_qz in U. apply Z.nlt_ge. intros L. apply (Qclt_not_le _ _ U).
    apply Qcle_trans with (pow2 (e + n)); [apply pow2_le; lia|]. replace (pow2 (e + n)) with (qz 1 * pow2 (e + n))%Qc at 1 by (change (qz 1) with 1%Qc; ring).
    apply Qcmult_le_compat_r; [apply qz_le; lia|apply Qclt_le_weak, pow2_pos].
Qed.

Lemma between (u v z x y : Qc) : (u - v = x)%Qc -> (u + v = y)%Qc -> (qz 0 <= z)%Qc -> (z <= v)%Qc ->
  (x <= u - z)%Qc /\ (u - z <= u)%Qc /\ (u <= u + z)%Qc /\ (u + z <= y)%Qc.
Proof. intros <- <- H1 H2. repeat split; qlra. Qed.

Lemma half_up (x y : Qc) : (x <= y)%Qc -> (x <= y + qhalf)%Qc /\ (x + qhalf <= y + qhalf)%Qc.
Proof. intros H. split; qlra. Qed.
Lemma floor_half k : qfloor (qz k + qhalf) = k.
Proof. apply qfloor_unique; qlra. Qed.

Section P.
Variables (r A B : Z) (c : Qc).
Hypothesis Hr : 0 <= r <= 93.
Hypothesis HA : - 2 ^ 22 <= A <= 2 ^ 22.
Hypothesis HB : - 2 ^ 22 <= B <= 2 ^ 22.
Hypothesis HAB : A <= B.
Hypothesis Hc0 : (qz 0 <= c)%Qc.
Hypothesis Hc1 : (c <= qz 1)%Qc.
Let a := (qz A * pow2 (- r))%Qc.
Let b := (qz B * pow2 (- r))%Qc.
Let w := rn32 (diff32 a b * c)%Qc.

Lemma Hr' : -32 <= r <= 93.
Proof. lia. Qed.
Lemma w_small : (qz 0 <= w)%Qc /\ (w <= diff32 a b)%Qc.
Proof.
  pose proof (diff_nonneg r A B Hr' HA HB HAB) as D. fold a b in D. pose proof (diff_exact r A B Hr' HA HB HAB) as E. fold a b in E.
  assert (F : float32 (diff32 a b)) by (rewrite E; apply float_grid; lia).
  split; [apply rn32_ge; [apply float_0|apply mul_pos0; assumption]|]. apply rn32_le; [exact F|].
  pose proof (mul_le2 (diff32 a b) (diff32 a b) c (qz 1) D (Qcle_refl _) Hc0 Hc1) as K. replace (diff32 a b * qz 1)%Qc with (diff32 a b) in K by (change (qz 1) with 1%Qc; ring). exact K.
Qed.
Lemma mean_float : float32 (mean32 a b).
Proof. unfold a, b. rewrite (mean_exact r A B Hr' HA HB HAB). apply float_grid; lia. Qed.
Lemma ends_order : (a <= lo32 c a b)%Qc /\ (lo32 c a b <= mean32 a b)%Qc /\ (mean32 a b <= hi32 c a b)%Qc /\ (hi32 c a b <= b)%Qc.
Proof.
  destruct w_small as [W1 W2]. pose proof (mean_minus r A B Hr' HA HB HAB) as MM. pose proof (mean_plus r A B Hr' HA HB HAB) as MP. fold a b in MM, MP.
  pose proof mean_float as FM. assert (Fa : float32 a) by (apply float_grid; lia). assert (Fb : float32 b) by (apply float_grid; lia).
  destruct (between _ _ _ _ _ MM MP W1 W2) as (T1 & T2 & T3 & T4). unfold lo32, hi32. fold w.
  split; [apply rn32_ge; [exact Fa|exact T1]|]. split; [apply rn32_le; [exact FM|exact T2]|].
  split; [apply rn32_ge; [exact FM|exact T3]|apply rn32_le; [exact Fb|exact T4]].
Qed.

(** A float between the bounds. *)
Lemma step_at fl x : float32 x -> (a <= x)%Qc -> (x <= b)%Qc ->
  forward32 fl r x = (qz (q_round32 fl (x * pow2 r)) * pow2 (- r))%Qc /\ (qz A <= x * pow2 r)%Qc /\ (x * pow2 r <= qz B)%Qc.
Proof.
  intros Fx L1 L2. assert (SA : (a * pow2 r = qz A)%Qc) by apply mul_pow2_cancel'. assert (SB : (b * pow2 r = qz B)%Qc) by apply mul_pow2_cancel'.
  assert (K1 : (qz A <= x * pow2 r)%Qc) by (rewrite <- SA; apply Qcmult_le_compat_r; [exact L1|apply Qclt_le_weak, pow2_pos]).
  assert (K2 : (x * pow2 r <= qz B)%Qc) by (rewrite <- SB; apply Qcmult_le_compat_r; [exact L2|apply Qclt_le_weak, pow2_pos]).
  split; [|split; assumption].
  assert (U : (qabs (x * pow2 r) < pow2 100)%Qc).
  { apply Qcle_lt_trans with (qz (2 ^ 22)); [|rewrite (pow2_Z 100) by lia; apply qz_lt; lia].
    apply qabs_le_iff. split; [apply Qcle_trans with (qz A); [rewrite <- qz_opp; apply qz_le; lia|exact K1]|apply Qcle_trans with (qz B); [exact K2|apply qz_le; lia]]. }
  assert (Fs : float32 (x * pow2 r)%Qc) by (apply float_up; [exact Fx|lia|exact U]).
  destruct fl; [unfold q_round32; apply forward_floor; [exact Fx|exact Fs|lia]|].
  rewrite forward_step by (assumption || lia). rewrite (rn32_id _ Fs). reflexivity.
Qed.

Lemma narrow32_point fl : exists p q, forward32 fl r (lo32 c a b) = (qz p * pow2 (- r))%Qc /\ forward32 fl r (hi32 c a b) = (qz q * pow2 (- r))%Qc /\ A <= p /\ p <= q /\ q <= B.
Proof.
  destruct ends_order as (O1 & O2 & O3 & O4). pose proof mean_float as FM.
  assert (Eab : (mean32 a b * pow2 r = qz (A + B) * pow2 (-1))%Qc).
  { unfold a, b. rewrite (mean_exact r A B Hr' HA HB HAB). rewrite <- Qcmult_assoc, <- pow2_add. do 2 f_equal. lia. }
  assert (Fl : float32 (lo32 c a b) /\ float32 (hi32 c a b)).
  { assert (X : forall x, (a <= x)%Qc -> (x <= b)%Qc -> (qabs x < pow2 127)%Qc).
    { intros x X1 X2. assert (Pr : (pow2 (- r) <= qz 1)%Qc) by (apply Qcle_trans with (pow2 0); [apply pow2_le; lia|apply Qcle_refl]).
      assert (Z22 : forall k, 0 <= k <= 2 ^ 22 -> (qz k * pow2 (- r) <= qz (2 ^ 22))%Qc).
      { intros k Hk. pose proof (mul_le2 (qz k) (qz (2 ^ 22)) (pow2 (- r)) (qz 1)) as K. replace (qz (2 ^ 22) * qz 1)%Qc with (qz (2 ^ 22)) in K by (change (qz 1) with 1%Qc; ring).
        apply K; [apply qz_le; lia|apply qz_le; lia|apply Qclt_le_weak, pow2_pos|exact Pr]. }
      apply Qcle_lt_trans with (qz (2 ^ 22)); [|rewrite (pow2_Z 127) by lia; apply qz_lt; lia].
      pose proof (pow2_pos (- r)) as PP. apply qabs_le_iff. split.
      - apply Qcle_trans with a; [|exact X1]. unfold a. destruct (Z.le_gt_cases 0 A) as [L|L].
        + apply Qcle_trans with (qz 0); [rewrite <- qz_opp; apply qz_le; lia|]. apply mul_pos0; [apply qz_le; exact L|apply Qclt_le_weak; exact PP].
        + pose proof (Z22 (- A) ltac:(lia)) as K. rewrite qz_opp in K. replace (qz A * pow2 (- r))%Qc with (- (- qz A * pow2 (- r)))%Qc by ring. apply Qcopp_le_compat. exact K.
      - apply Qcle_trans with b; [exact X2|]. unfold b. destruct (Z.le_gt_cases 0 B) as [L|L]; [apply Z22; lia|].
        apply Qcle_trans with (qz 0); [|apply qz_le; lia]. assert (L' : (qz B <= qz 0)%Qc) by (apply qz_le; lia).
        pose proof (Qcmult_le_compat_r _ _ (pow2 (- r)) L' (Qclt_le_weak _ _ PP)) as K. replace (qz 0 * pow2 (- r))%Qc with (qz 0) in K by (rewrite qz_0; ring). exact K. }
    unfold lo32, hi32 in *. fold w in O1, O2, O3, O4 |- *. destruct w_small as [W1 W2].
    pose proof (mean_minus r A B Hr' HA HB HAB) as MM. pose proof (mean_plus r A B Hr' HA HB HAB) as MP. fold a b in MM, MP.
    destruct (between _ _ _ _ _ MM MP W1 W2) as (T1 & T2 & T3 & T4).
    split; apply rn32_float, X.
    - exact T1.
    - eapply Qcle_trans; [exact T2|]. eapply Qcle_trans; [exact T3|exact T4].
    - eapply Qcle_trans; [exact T1|]. eapply Qcle_trans; [exact T2|exact T3].
    - exact T4. }
  destruct Fl as [F1 F2].
  destruct (step_at fl _ F1 O1) as (E1 & L1 & U1); [eapply Qcle_trans; [exact O2|eapply Qcle_trans; [exact O3|exact O4]]|].
  destruct (step_at fl _ F2) as (E2 & L2 & U2); [eapply Qcle_trans; [exact O1|eapply Qcle_trans; [exact O2|exact O3]]|exact O4|].
  eexists _, _. split; [exact E1|]. split; [exact E2|].
  assert (M1 : (lo32 c a b * pow2 r <= qz (A + B) * pow2 (-1))%Qc) by (rewrite <- Eab; apply Qcmult_le_compat_r; [exact O2|apply Qclt_le_weak, pow2_pos]).
  assert (M2 : (qz (A + B) * pow2 (-1) <= hi32 c a b * pow2 r)%Qc) by (rewrite <- Eab; apply Qcmult_le_compat_r; [exact O3|apply Qclt_le_weak, pow2_pos]).
  assert (FMh : float32 (qz (A + B) * pow2 (-1) + qhalf)%Qc).
  { replace (qz (A + B) * pow2 (-1) + qhalf)%Qc with (qz (A + B + 1) * pow2 (-1))%Qc; [apply float_grid; lia|]. rewrite (qz_add (A + B) 1). change (pow2 (-1)) with qhalf. change (qz 1) with 1%Qc. ring. }
  assert (FBh : float32 (qz B + qhalf)%Qc).
  { replace (qz B + qhalf)%Qc with (qz (2 * B + 1) * pow2 (-1))%Qc; [apply float_grid; lia|]. rewrite qz_add, qz_mul. change (pow2 (-1)) with qhalf. transitivity (qz B * (qz 2 * qhalf) + qz 1 * qhalf)%Qc; [ring|]. replace (qz 2 * qhalf)%Qc with (qz 1) by (apply Qc_is_canon; reflexivity). change (qz 1) with 1%Qc. ring. }
  revert L1 M1 M2 U2 FMh FBh. generalize (lo32 c a b * pow2 r)%Qc, (hi32 c a b * pow2 r)%Qc, (qz (A + B) * pow2 (-1))%Qc. clear - HA HB.
  intros s t u L1 M1 M2 U2 FMh FBh.
  assert (Hu : forall x n, (qz n <= x)%Qc -> n <= qfloor x).
  { intros x n H. pose proof (qfloor_lt x) as F. assert (K : (qz n < qz (qfloor x + 1))%Qc) by (rewrite qz_add; eapply Qcle_lt_trans; eassumption). apply (proj1 (qz_lt _ _)) in K. lia. }
  assert (Hm : forall x y, (x <= y)%Qc -> qfloor x <= qfloor y) by (intros x y H; apply Hu; eapply Qcle_trans; [apply qfloor_le|exact H]).
  unfold q_round32. destruct fl.
  - split; [apply Hu; exact L1|]. split; [apply Hm; eapply Qcle_trans; eassumption|]. rewrite <- (qfloor_qz B). apply Hm. exact U2.
  - split; [apply Hu; apply rn32_ge; [apply float_qz; lia|apply half_up; exact L1]|]. split.
    + apply Hm. apply Qcle_trans with (u + qhalf)%Qc; [apply rn32_le; [exact FMh|apply half_up; exact M1]|apply rn32_ge; [exact FMh|apply half_up; exact M2]].
    + assert (K : (rn32 (t + qhalf) <= qz B + qhalf)%Qc) by (apply rn32_le; [exact FBh|apply half_up; exact U2]). apply Hm in K. rewrite floor_half in K. exact K.
Qed.
End P.

Local Open Scope nat_scope.
Lemma narrow32 c o : obj_ok o -> (qz 0 < c)%Qc -> (c <= qz 1)%Qc ->
  (forall g, g < length (data (q_fbw (l_paq (o_layer o)))) -> exists mn mx, holds_range (l_paq (o_layer o)) g mn mx) ->
  exists o', cover_obj32 c o = Ok o' /\
  forall g r mn mx, g < length (data (q_fbw (l_paq (o_layer o)))) -> frac_bits (l_paq (o_layer o)) g r -> (0 <= r <= 93)%Z ->
    holds_range (l_paq (o_layer o)) g mn mx -> on_grid r mn -> on_grid r mx -> (mn <= mx)%Qc -> (qabs mn <= pow2 (22 - r))%Qc -> (qabs mx <= pow2 (22 - r))%Qc ->
    exists mn' mx', holds_range (l_paq (o_layer o')) g mn' mx' /\ on_grid r mn' /\ on_grid r mx' /\ (mn <= mn')%Qc /\ (mn' <= mx')%Qc /\ (mx' <= mx)%Qc.
Proof.
  intros HO H0 H1 HR. destruct (obj_ok_len o HO) as [N1 N2].
  destruct (finite_total (q_min (l_paq (o_layer o))) PosInf) as [mn E1].
  { intros g Hg. rewrite N1 in Hg. destruct (HR g Hg) as [a [b [A _]]]. eauto. }
  destruct (finite_total (q_max (l_paq (o_layer o))) NegInf) as [mx E2].
  { intros g Hg. rewrite N2 in Hg. destruct (HR g Hg) as [a [b [_ B]]]. eauto. }
  pose proof (cover32_value c o mn mx HO E1 E2) as V. cbv zeta in V. eexists. split; [exact V|].
  destruct (finite_spec _ _ E1) as [S1 [L1 V1]]. destruct (finite_spec _ _ E2) as [S2 [L2 V2]].
  set (q := l_paq (o_layer o)) in *. intros g r a b Hg Fb Hr [Ha Hb] [A EA] [B EB] Hab Ra Rb. subst a b.
  pose proof (grid_units r A Ra) as UA. pose proof (grid_units r B Rb) as UB.
  assert (LAB : (A <= B)%Z). { apply Z.nlt_ge. intros L. apply (Qcle_not_lt _ _ Hab). apply Qcmult_lt_compat_r; [apply pow2_pos|apply qz_lt, L]. }
  destruct (narrow32_point r A B c Hr UA UB LAB (Qclt_le_weak _ _ H0) H1 (Z.eqb (q_strategy q) 3)) as (p & p' & Ep & Ep' & K1 & K2 & K3).
  exists (qz p * pow2 (- r))%Qc, (qz p' * pow2 (- r))%Qc.
  assert (Ea : nth g (data mn) (qz 0) = (qz A * pow2 (- r))%Qc). { rewrite (V1 g (qz 0)) in Ha by (rewrite N1; exact Hg). injection Ha as Ha. exact Ha. }
  assert (Eb : nth g (data mx) (qz 0) = (qz B * pow2 (- r))%Qc). { rewrite (V2 g (qz 0)) in Hb by (rewrite N2; exact Hg). injection Hb as Hb. exact Hb. }
  assert (Er : qround_even (nth g (data (q_fbw q)) (qz 0)) = r) by (apply nearest_even_fun in Fb; symmetry; exact Fb).
  assert (Hn : forall f e, nth g (reg32 q f mn mx) e = Fin (forward32 (Z.eqb (q_strategy q) 3) r (f (qz A * pow2 (- r))%Qc (qz B * pow2 (- r))%Qc))).
  { intros f e. unfold reg32. rewrite nth_map_seq by exact Hg. rewrite Ea, Eb, Er. reflexivity. }
  split; [split; cbn [with_paq with_layer o_layer l_paq with_minmax q_min q_max data]; rewrite Hn, ?Ep, ?Ep'; reflexivity|].
  split; [eexists; reflexivity|]. split; [eexists; reflexivity|].
  repeat split; apply Qcmult_le_compat_r; try (apply Qclt_le_weak, pow2_pos); apply qz_le; assumption.
Qed.
