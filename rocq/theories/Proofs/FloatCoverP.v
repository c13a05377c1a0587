(** cover_factor in single precision (C94). *)
From Coq Require Import ZArith QArith Qcanon List Bool String Lia.
From Verif Require Import Base.Num Base.NumFacts Base.Tensor Model.FixedPoint Model.Quantizer Model.Layers Model.Graph
  Model.Convert Model.Trace Model.Float32 Model.FloatLayer Model.FloatNet Spec.Fixed Spec.Quant Spec.History Spec.Layer Spec.Graph Spec.Trace Spec.Steady Spec.Calib Spec.Unseen Spec.Prepared
  Spec.Float Spec.FloatLayer Spec.FloatNet Proofs.FixedPointP Proofs.TensorP Proofs.QuantizerP Proofs.Float32P Proofs.Float32Q
  Proofs.RecordP Proofs.BitsP Proofs.CallP Proofs.SampleP Proofs.LayersP Proofs.ConvertP
  Proofs.TraceP Proofs.FeedP Proofs.TraceMinmaxP Proofs.CoverP Proofs.TraceMoreP Proofs.ProxyModelP Proofs.ProxyLayerP Proofs.ProxyConvP Proofs.ProxyTraceP Proofs.ProxyGuardP
  Proofs.CalibP Proofs.UnseenP Proofs.FloatSumP Proofs.FloatLayerP Proofs.FloatModelP Proofs.FloatNetP Proofs.PreparedP.
Import ListNotations.
Local Open Scope Z_scope.

(** ** Rounding keeps the grid *)
Lemma rn32_grid x e : (exists k, x = (qz k * pow2 e)%Qc) -> -149 <= e -> exists k, rn32 x = (qz k * pow2 e)%Qc.
Proof.
  intros [k Ek] He. unfold rn32. destruct (qeqb_spec x (qz 0)) as [E0|N0]; [exists 0; rewrite qz_0; ring|].
  set (e' := Z.max (flog2 (qabs x) - 23) (-149)). destruct (Z.le_gt_cases e e') as [L|L].
  - eexists. apply regrid. exact L.
  - exists k. assert (E : (x * pow2 (- e') = qz (k * 2 ^ (e - e')))%Qc).
    { rewrite Ek, (regrid k e e') by lia. rewrite <- Qcmult_assoc, <- pow2_add. replace (e' + - e') with 0 by lia. change (pow2 0) with 1%Qc. ring. }
    rewrite E, qround_even_qz, <- (regrid k e e') by lia. reflexivity.
Qed.

Lemma mul_pos0 x y : (qz 0 <= x -> qz 0 <= y -> qz 0 <= x * y)%Qc.
Proof. intros. qnra. Qed.
Lemma mul_le2 x x' y y' : (qz 0 <= x -> x <= x' -> qz 0 <= y -> y <= y' -> x * y <= x' * y')%Qc.
Proof. intros. apply Qcle_trans with (x' * y)%Qc; qnra. Qed.
Lemma grow x c : (qz 0 <= x -> qz 1 <= c -> x <= x * c)%Qc.
Proof. intros H H0. pose proof (mul_le2 x x (qz 1) c H (Qcle_refl _) ltac:(qlra) H0) as K. replace (x * qz 1)%Qc with x in K by (change (qz 1) with 1%Qc; ring). exact K. Qed.
Lemma pow2_float e : -149 <= e <= 103 -> float32 (pow2 e).
Proof. intros H. replace (pow2 e) with (qz 1 * pow2 e)%Qc by (change (qz 1) with 1%Qc; ring). apply float_grid; lia. Qed.

Section V.
Variables (r A B : Z) (c : Qc).
Hypothesis Hr : -32 <= r <= 93.
Hypothesis HA : - 2 ^ 22 <= A <= 2 ^ 22.
Hypothesis HB : - 2 ^ 22 <= B <= 2 ^ 22.
Hypothesis HAB : A <= B.
Hypothesis Hc1 : (qz 1 <= c)%Qc.
Hypothesis Hc2 : (c <= pow2 40)%Qc.
Let a := (qz A * pow2 (- r))%Qc.
Let b := (qz B * pow2 (- r))%Qc.
Definition mean32 (u v : Qc) : Qc := rn32 (rn32 (u + v) / qz 2)%Qc.
Definition diff32 (u v : Qc) : Qc := rn32 (rn32 (v - u) / qz 2)%Qc.
Definition lo32 (k u v : Qc) : Qc := rn32 (mean32 u v - rn32 (diff32 u v * k))%Qc.
Definition hi32 (k u v : Qc) : Qc := rn32 (mean32 u v + rn32 (diff32 u v * k))%Qc.

Lemma half_grid_pow k : (qz k * pow2 (- r) / qz 2 = qz k * pow2 (- r - 1))%Qc.
Proof. rewrite half_div. replace (- r - 1) with (- r + -1) by lia. rewrite pow2_add. change qhalf with (pow2 (-1)). ring. Qed.
Lemma mean_exact : mean32 a b = (qz (A + B) * pow2 (- r - 1))%Qc.
Proof.
  unfold mean32, a, b. replace (qz A * pow2 (- r) + qz B * pow2 (- r))%Qc with (qz (A + B) * pow2 (- r))%Qc by (rewrite qz_add; ring).
  rewrite (rn32_id (qz (A + B) * pow2 (- r))) by (apply float_grid; lia). rewrite half_grid_pow. apply rn32_id, float_grid; lia.
Qed.
Lemma diff_exact : diff32 a b = (qz (B - A) * pow2 (- r - 1))%Qc.
Proof.
  unfold diff32, a, b. replace (qz B * pow2 (- r) - qz A * pow2 (- r))%Qc with (qz (B - A) * pow2 (- r))%Qc by (rewrite qz_sub; ring).
  rewrite (rn32_id (qz (B - A) * pow2 (- r))) by (apply float_grid; lia). rewrite half_grid_pow. apply rn32_id, float_grid; lia.
Qed.
Lemma mean_minus : (mean32 a b - diff32 a b = a)%Qc.
Proof. rewrite mean_exact, diff_exact. unfold a. replace (- r) with (- r - 1 + 1) by lia. rewrite pow2_add. change (pow2 1) with (qz 2). rewrite qz_add, qz_sub. replace (qz 2) with (qz 1 + qz 1)%Qc by (apply Qc_is_canon; reflexivity). change (qz 1) with 1%Qc. replace (- r - 1 + 1 - 1) with (- r - 1) by lia. ring. Qed.
Lemma mean_plus : (mean32 a b + diff32 a b = b)%Qc.
Proof. rewrite mean_exact, diff_exact. unfold b. replace (- r) with (- r - 1 + 1) by lia. rewrite pow2_add. change (pow2 1) with (qz 2). rewrite qz_add, qz_sub. replace (qz 2) with (qz 1 + qz 1)%Qc by (apply Qc_is_canon; reflexivity). change (qz 1) with 1%Qc. replace (- r - 1 + 1 - 1) with (- r - 1) by lia. ring. Qed.

Let w := rn32 (diff32 a b * c)%Qc.
Lemma diff_nonneg : (qz 0 <= diff32 a b)%Qc.
Proof. rewrite diff_exact. apply mul_pos0; [apply qz_le; lia|apply Qclt_le_weak, pow2_pos]. Qed.
Lemma diff_float : float32 (diff32 a b).
Proof. rewrite diff_exact. apply float_grid; lia. Qed.
Lemma w_ge : (diff32 a b <= w)%Qc.
Proof. apply rn32_ge; [exact diff_float|]. apply grow; [exact diff_nonneg|exact Hc1]. Qed.
Lemma prod_le : (diff32 a b * c <= pow2 (62 - r))%Qc.
Proof.
  replace (62 - r) with (23 + (- r - 1) + 40) by lia. rewrite !(pow2_add _ 40). apply mul_le2; [exact diff_nonneg| |apply Qcle_trans with (qz 1); [apply qz_le; lia|exact Hc1]|exact Hc2].
  rewrite diff_exact, (pow2_add 23). apply mul_le2; [apply qz_le; lia| |apply Qclt_le_weak, pow2_pos|apply Qcle_refl]. rewrite pow2_Z by lia. apply qz_le. lia.
Qed.
Lemma prod_nonneg : (qz 0 <= diff32 a b * c)%Qc.
Proof. apply mul_pos0; [exact diff_nonneg|]. apply Qcle_trans with (qz 1); [apply qz_le; lia|exact Hc1]. Qed.
Lemma w_le : (w <= pow2 (62 - r))%Qc.
Proof. apply rn32_le; [apply pow2_float; lia|exact prod_le]. Qed.
Lemma w_nonneg : (qz 0 <= w)%Qc.
Proof. apply rn32_ge; [apply float_0|exact prod_nonneg]. Qed.
Lemma abs_nn x : (qz 0 <= x)%Qc -> qabs x = x.
Proof. clear. intros H. destruct (qabs_spec x) as [[_ E]|[L _]]; [exact E|]. exfalso. exact (Qclt_not_le _ _ L H). Qed.
(** The product is a multiple of 2^(-r-24): nothing smaller is left by the subtraction. *)
Lemma w_grid : exists k, w = (qz k * pow2 (- r - 24))%Qc.
Proof.
  destruct (Z.eq_dec A B) as [E|N].
  - exists 0. unfold w. rewrite diff_exact. replace (B - A) with 0 by lia. replace (qz 0 * pow2 (- r - 1) * c)%Qc with (qz 0) by (rewrite qz_0; ring). rewrite (rn32_id _ float_0). rewrite qz_0. ring.
  - assert (D : (pow2 (- r - 1) <= diff32 a b)%Qc).
    { rewrite diff_exact. pose proof (mul_le2 (qz 1) (qz (B - A)) (pow2 (- r - 1)) (pow2 (- r - 1))) as K. replace (qz 1 * pow2 (- r - 1))%Qc with (pow2 (- r - 1)) in K by (change (qz 1) with 1%Qc; ring).
      apply K; [apply qz_le; lia|apply qz_le; lia|apply Qclt_le_weak, pow2_pos|apply Qcle_refl]. }
    assert (Fw : float32 w).
    { unfold w. apply rn32_float. rewrite abs_nn by exact prod_nonneg. apply Qcle_lt_trans with (pow2 (62 - r)); [exact prod_le|apply pow2_lt; lia]. }
    destruct (float_unit w (- r - 1) Fw) as [k Ek].
    { rewrite abs_nn by exact w_nonneg. exact (Qcle_trans _ _ _ D w_ge). }
    exists k. rewrite Ek. f_equal. f_equal. lia.
Qed.
Lemma qz_pow_grid k e e' : e' <= e -> exists k', (qz k * pow2 e = qz k' * pow2 e')%Qc.
Proof. clear. intros H. eexists. apply regrid. exact H. Qed.

Lemma mean_abs : (qabs (mean32 a b) <= pow2 (22 - r))%Qc.
Proof.
  rewrite mean_exact, qabs_scale, qabs_qz. replace (22 - r) with (23 + (- r - 1)) by lia. rewrite pow2_add.
  apply mul_le2; [apply qz_le; lia| |apply Qclt_le_weak, pow2_pos|apply Qcle_refl]. rewrite pow2_Z by lia. apply qz_le. lia.
Qed.

(** A value x between the bounds, on the fine grid, is quantized to a multiple of 2^-r. *)
Lemma quant_grid fl x : (exists k, x = (qz k * pow2 (- r - 24))%Qc) -> (qabs x <= pow2 (63 - r))%Qc ->
  exists q, forward32 fl r (rn32 x) = (qz q * pow2 (- r))%Qc /\ q = q_round32 fl (rn32 (rn32 x * pow2 r)).
Proof.
  intros HG HX. assert (Fx : float32 (rn32 x)) by (apply rn32_float; eapply Qcle_lt_trans; [exact HX|apply pow2_lt; lia]).
  assert (Hx : (qabs (rn32 x) <= pow2 (63 - r))%Qc).
  { pose proof (pow2_float (63 - r) ltac:(lia)) as Fp. apply qabs_le_iff in HX. destruct HX as [X1 X2]. apply qabs_le_iff. split; [apply rn32_ge; [apply float_opp, Fp|exact X1]|apply rn32_le; [exact Fp|exact X2]]. }
  assert (Hs : (qabs (rn32 x * pow2 r) < pow2 100)%Qc).
  { rewrite qabs_scale. apply Qcle_lt_trans with (pow2 (63 - r) * pow2 r)%Qc; [apply mul_le2; [apply qabs_nonneg|exact Hx|apply Qclt_le_weak, pow2_pos|apply Qcle_refl]|]. rewrite <- pow2_add. apply pow2_lt. lia. }
  destruct fl.
  - assert (Fs : float32 (rn32 x * pow2 r)).
    { destruct (qltb_spec (qabs (rn32 x * pow2 r)) (pow2 (-2))) as [T|T].
      - destruct (rn32_grid x (- r - 24) HG ltac:(lia)) as [k Ek]. assert (Es : (rn32 x * pow2 r = qz k * pow2 (-24))%Qc).
        { rewrite Ek, <- Qcmult_assoc, <- pow2_add. f_equal. f_equal. lia. }
        rewrite Es in *. rewrite qabs_scale, qabs_qz in T. replace (-2) with (22 + -24) in T by lia. rewrite pow2_add in T.
        assert (T' : (qz (Z.abs k) < pow2 22)%Qc). { apply Qcnot_le_lt. intros L. apply (Qclt_not_le _ _ T). apply mul_le2; [apply Qclt_le_weak, pow2_pos|exact L|apply Qclt_le_weak, pow2_pos|apply Qcle_refl]. }
        rewrite pow2_Z in T' by lia. apply (proj1 (qz_lt _ _)) in T'. apply float_grid; lia.
      - apply float_scale; assumption. }
    eexists. split; [|reflexivity]. rewrite forward_floor by (assumption || lia). unfold q_round32. rewrite (rn32_id _ Fs). reflexivity.
  - eexists. split; [|reflexivity]. apply forward_step; [exact Fx|lia|exact Hs].
Qed.

Lemma lo_grid : exists k, (mean32 a b - w = qz k * pow2 (- r - 24))%Qc.
Proof.
  destruct w_grid as [k Ek]. exists ((A + B) * 2 ^ (- r - 1 - (- r - 24)) - k). rewrite mean_exact, Ek, (regrid (A + B) (- r - 1) (- r - 24)) by lia. rewrite qz_sub. ring.
Qed.
Lemma hi_grid : exists k, (mean32 a b + w = qz k * pow2 (- r - 24))%Qc.
Proof.
  destruct w_grid as [k Ek]. exists ((A + B) * 2 ^ (- r - 1 - (- r - 24)) + k). rewrite mean_exact, Ek, (regrid (A + B) (- r - 1) (- r - 24)) by lia. rewrite qz_add. ring.
Qed.
Lemma ends_abs : (qabs (mean32 a b - w) <= pow2 (63 - r))%Qc /\ (qabs (mean32 a b + w) <= pow2 (63 - r))%Qc.
Proof.
  pose proof mean_abs as M. apply qabs_le_iff in M. destruct M as [M1 M2]. pose proof w_nonneg as W1. pose proof w_le as W2.
  assert (P : (pow2 (63 - r) = pow2 (62 - r) + pow2 (62 - r))%Qc). { replace (63 - r) with (62 - r + 1) by lia. rewrite pow2_succ. replace (qz 2) with (qz 1 + qz 1)%Qc by (apply Qc_is_canon; reflexivity). change (qz 1) with 1%Qc. ring. }
  assert (L : (pow2 (22 - r) <= pow2 (62 - r))%Qc) by (apply pow2_le; lia). rewrite P. clear P. revert M1 M2 W1 W2 L. clear.
  generalize (mean32 a b), w, (pow2 (62 - r)), (pow2 (22 - r)). intros x y u v M1 M2 W1 W2 L. split; apply qabs_le_iff; split; qlra.
Qed.

Lemma cover32_point fl : exists p q, forward32 fl r (lo32 c a b) = (qz p * pow2 (- r))%Qc /\ forward32 fl r (hi32 c a b) = (qz q * pow2 (- r))%Qc /\ p <= A /\ B <= q.
Proof.
  destruct ends_abs as [X1 X2]. destruct (quant_grid fl _ lo_grid X1) as [p [Ep Vp]]. destruct (quant_grid fl _ hi_grid X2) as [q [Eq Vq]].
  exists p, q. split; [exact Ep|]. split; [exact Eq|]. clear Ep Eq. pose proof w_ge as WG. pose proof mean_minus as MM. pose proof mean_plus as MP.
  assert (L : (rn32 (mean32 a b - w) <= a)%Qc).
  { apply rn32_le; [apply float_grid; lia|]. apply Qcle_trans with (mean32 a b - diff32 a b)%Qc; [|rewrite MM; apply Qcle_refl]. revert WG. clear. generalize (mean32 a b), (diff32 a b), w. intros. qlra. }
  assert (H : (b <= rn32 (mean32 a b + w))%Qc).
  { apply rn32_ge; [apply float_grid; lia|]. apply Qcle_trans with (mean32 a b + diff32 a b)%Qc; [rewrite MP; apply Qcle_refl|]. revert WG. clear. generalize (mean32 a b), (diff32 a b), w. intros. qlra. }
  assert (SA : (a * pow2 r = qz A)%Qc) by apply mul_pow2_cancel'. assert (SB : (b * pow2 r = qz B)%Qc) by apply mul_pow2_cancel'.
  pose proof (pow2_pos r) as P.
  assert (L' : (rn32 (rn32 (mean32 a b - w) * pow2 r) <= qz A)%Qc).
  { apply rn32_le; [apply float_qz; lia|]. rewrite <- SA. apply Qcmult_le_compat_r; [exact L|apply Qclt_le_weak, P]. }
  assert (H' : (qz B <= rn32 (rn32 (mean32 a b + w) * pow2 r))%Qc).
  { apply rn32_ge; [apply float_qz; lia|]. rewrite <- SB. apply Qcmult_le_compat_r; [exact H|apply Qclt_le_weak, P]. }
  set (s := rn32 (rn32 (mean32 a b - w) * pow2 r)) in *. set (t := rn32 (rn32 (mean32 a b + w) * pow2 r)) in *. clearbody s t.
  subst p q. unfold q_round32. split.
  - assert (Ah : float32 (qz A + qhalf)%Qc). { replace (qz A + qhalf)%Qc with (qz (2 * A + 1) * pow2 (-1))%Qc; [apply float_grid; lia|]. rewrite qz_add, qz_mul. change (pow2 (-1)) with qhalf. transitivity (qz A * (qz 2 * qhalf) + qz 1 * qhalf)%Qc; [ring|]. replace (qz 2 * qhalf)%Qc with (qz 1) by (apply Qc_is_canon; reflexivity). change (qz 1) with 1%Qc. ring. }
    destruct fl.
    + apply qz_le. apply Qcle_trans with s; [apply qfloor_le|exact L'].
    + assert (R : (rn32 (s + qhalf) <= qz A + qhalf)%Qc) by (apply rn32_le; [exact Ah|revert L'; clear; intros; qlra]).
      assert (K : (qz (qfloor (rn32 (s + qhalf))) < qz (A + 1))%Qc) by (eapply Qcle_lt_trans; [apply qfloor_le|]; eapply Qcle_lt_trans; [exact R|]; rewrite qz_add; clear; qlra).
      apply (proj1 (qz_lt _ _)) in K. cbv iota. lia.
  - destruct fl.
    + assert (K : (qz B < qz (qfloor t + 1))%Qc) by (eapply Qcle_lt_trans; [exact H'|]; rewrite qz_add; apply qfloor_lt). apply (proj1 (qz_lt _ _)) in K. cbv iota. lia.
    + assert (R : (qz B <= rn32 (t + qhalf))%Qc) by (apply rn32_ge; [apply float_qz; lia|revert H'; clear; intros; qlra]).
      assert (K : (qz B < qz (qfloor (rn32 (t + qhalf)) + 1))%Qc) by (eapply Qcle_lt_trans; [exact R|]; rewrite qz_add; apply qfloor_lt). apply (proj1 (qz_lt _ _)) in K. cbv iota. lia.
Qed.
End V.

Local Open Scope nat_scope.
Definition reg32 (q : hgq) (f : Qc -> Qc -> Qc) (mn mx : tensor Qc) : list ext :=
  map (fun g => Fin (forward32 (Z.eqb (q_strategy q) 3) (qround_even (nth g (data (q_fbw q)) (qz 0))) (f (nth g (data mn) (qz 0)) (nth g (data mx) (qz 0))))) (seq 0 (ngroups q)).

Lemma cover32_value (c : Qc) (o : hobj) mn mx : obj_ok o -> finite (q_min (l_paq (o_layer o))) = Ok mn -> finite (q_max (l_paq (o_layer o))) = Ok mx ->
  let q := l_paq (o_layer o) in
  cover_obj32 c o = Ok (with_paq o (with_minmax q (mkT (shape (q_min q)) (reg32 q (lo32 c) mn mx)) (mkT (shape (q_max q)) (reg32 q (hi32 c) mn mx)))).
Proof.
  intros [[Q _] [R [Hc _]]] E1 E2. cbv zeta. unfold cover_obj32. cbv zeta. rewrite E1, E2. cbn [rbind].
  set (q := l_paq (o_layer o)) in *. destruct R as [pre [rest [Eo [Sk [F [M X]]]]]].
  destruct (finite_spec _ _ E1) as [S1 [L1 V1]]. destruct (finite_spec _ _ E2) as [S2 [L2 V2]].
  destruct M as [Ms Ml], X as [Xs Xl].
  assert (EN : ngroups q = prodn rest) by apply F. destruct F as [Fs Fl].
  set (full := repeat 1 (S (length pre)) ++ rest) in *.
  assert (Pf : prodn full = prodn rest) by (unfold full; rewrite prodn_app, prodn_ones; lia).
  assert (BM : forall (f : Qc -> Qc -> Qc) u v, shape u = full -> shape v = full -> exists y, bmap2 (qz 0) (qz 0) f u v = Ok y /\ shape y = full /\ length (data y) = prodn rest /\
     forall g d, g < prodn rest -> nth g (data y) d = f (nth g (data u) (qz 0)) (nth g (data v) (qz 0))).
  { intros f u v Su Sv. destruct (bmap2_lead (qz 0) (qz 0) f 0 full u v Su Sv) as [y [B1 [B2 [B3 B4]]]].
    cbn [repeat app] in B2. exists y. rewrite Pf in *. auto. }
  destruct (BM (fun a b => rn32 (rn32 (rn32 (a + b) / qz 2) - rn32 (rn32 (rn32 (b - a) / qz 2) * c)))%Qc mn mx (eq_trans S1 Ms) (eq_trans S2 Xs)) as [lo [-> [Slo [_ Vlo]]]]. cbn [rbind].
  destruct (BM (fun a b => rn32 (rn32 (rn32 (a + b) / qz 2) + rn32 (rn32 (rn32 (b - a) / qz 2) * c)))%Qc mn mx (eq_trans S1 Ms) (eq_trans S2 Xs)) as [hi [-> [Shi [_ Vhi]]]]. cbn [rbind].
  unfold call32. rewrite clip_id_fbw by exact Hc.
  destruct (BM (fun v f => forward32 (Z.eqb (q_strategy q) 3) (qround_even f) v) lo (q_fbw q) Slo Fs) as [ya [-> [Sya [Lya Vya]]]]. cbn [rbind].
  destruct (BM (fun v f => forward32 (Z.eqb (q_strategy q) 3) (qround_even f) v) hi (q_fbw q) Shi Fs) as [yb [-> [Syb [Lyb Vyb]]]]. cbn [rbind].
  unfold assign. destruct (list_eq_dec _ (shape (q_min q)) _) as [_|N]; [|destruct N; congruence]. cbn [rbind].
  destruct (list_eq_dec _ (shape (q_max q)) _) as [_|N]; [|destruct N; congruence]. cbn [rbind]. f_equal. f_equal. f_equal.
  - apply tensor_eq; cbn [tmap shape data]; [congruence|]. apply nth_ext with (d := Fin (qz 0)) (d' := Fin (qz 0)); [unfold reg32; rewrite !map_length, seq_length; congruence|].
    intros g Hg. rewrite map_length, Lya in Hg. rewrite (map_nth Fin). unfold reg32. rewrite nth_map_seq by (rewrite EN; exact Hg). f_equal. rewrite Vya by exact Hg. f_equal. apply Vlo, Hg.
  - apply tensor_eq; cbn [tmap shape data]; [congruence|]. apply nth_ext with (d := Fin (qz 0)) (d' := Fin (qz 0)); [unfold reg32; rewrite !map_length, seq_length; congruence|].
    intros g Hg. rewrite map_length, Lyb in Hg. rewrite (map_nth Fin). unfold reg32. rewrite nth_map_seq by (rewrite EN; exact Hg). f_equal. rewrite Vyb by exact Hg. f_equal. apply Vhi, Hg.
Qed.

(** What is known of a range before cover_factor is applied. *)
Definition room (q : hgq) (g : nat) (r : Z) (a b : Qc) : Prop :=
  frac_bits q g r /\ (-32 <= r <= 93)%Z /\ holds_range q g a b /\ on_grid r a /\ on_grid r b /\ (a <= b)%Qc /\ (qabs a <= pow2 (22 - r))%Qc /\ (qabs b <= pow2 (22 - r))%Qc.

Lemma grid_units r A : (qabs (qz A * pow2 (- r)) <= pow2 (22 - r))%Qc -> (- 2 ^ 22 <= A <= 2 ^ 22)%Z.
Proof.
  rewrite qabs_scale, qabs_qz. replace (22 - r)%Z with (22 + - r)%Z by lia. rewrite pow2_add. intros H.
  assert (K : (qz (Z.abs A) <= pow2 22)%Qc). { apply Qcnot_lt_le. intros L. apply (Qcle_not_lt _ _ H). apply Qcmult_lt_compat_r; [apply pow2_pos|exact L]. }
  rewrite pow2_Z in K by lia. apply (proj1 (qz_le _ _)) in K. lia.
Qed.

Lemma cover32_wider c o : obj_ok o -> (qz 1 <= c)%Qc -> (c <= pow2 40)%Qc ->
  (forall g, g < ngroups (l_paq (o_layer o)) -> exists r a b, room (l_paq (o_layer o)) g r a b) ->
  exists o', cover_obj32 c o = Ok o' /\ same_but_registers o o' /\ obj_ok o' /\ wider_obj o o' /\
  forall g, g < ngroups (l_paq (o_layer o)) -> exists r a' b', frac_bits (l_paq (o_layer o)) g r /\ holds_range (l_paq (o_layer o')) g a' b' /\ on_grid r a' /\ on_grid r b'.
Proof.
  intros HO H1 H2 HR. destruct (obj_ok_len o HO) as [N1 N2].
  destruct (finite_total (q_min (l_paq (o_layer o))) PosInf) as [mn E1].
  { intros g Hg. rewrite N1 in Hg. destruct (HR g Hg) as [r [a [b [_ [_ [[A _] _]]]]]]. eauto. }
  destruct (finite_total (q_max (l_paq (o_layer o))) NegInf) as [mx E2].
  { intros g Hg. rewrite N2 in Hg. destruct (HR g Hg) as [r [a [b [_ [_ [[_ B] _]]]]]]. eauto. }
  pose proof (cover32_value c o mn mx HO E1 E2) as V. cbv zeta in V. eexists. split; [exact V|].
  destruct (finite_spec _ _ E1) as [S1 [L1 V1]]. destruct (finite_spec _ _ E2) as [S2 [L2 V2]].
  set (q := l_paq (o_layer o)) in *.
  assert (PT : forall g, g < ngroups q -> exists r A B p p', frac_bits q g r /\ nth g (data (q_min q)) PosInf = Fin (qz A * pow2 (- r))%Qc /\ nth g (data (q_max q)) NegInf = Fin (qz B * pow2 (- r))%Qc /\
     (forall e, nth g (reg32 q (lo32 c) mn mx) e = Fin (qz p * pow2 (- r))%Qc) /\ (forall e, nth g (reg32 q (hi32 c) mn mx) e = Fin (qz p' * pow2 (- r))%Qc) /\ (p <= A)%Z /\ (B <= p')%Z).
  { intros g Hg. destruct (HR g Hg) as (r & a & b & Fb & Hr & [Ha Hb] & [A EA] & [B EB] & Hab & Ra & Rb). subst a b.
    pose proof (grid_units r A Ra) as UA. pose proof (grid_units r B Rb) as UB.
    assert (LAB : (A <= B)%Z). { apply Z.nlt_ge. intros L. apply (Qcle_not_lt _ _ Hab). apply Qcmult_lt_compat_r; [apply pow2_pos|apply qz_lt, L]. }
    destruct (cover32_point r A B c Hr UA UB LAB H1 H2 (Z.eqb (q_strategy q) 3)) as (p & p' & Ep & Ep' & K1 & K2).
    exists r, A, B, p, p'. split; [exact Fb|]. split; [exact Ha|]. split; [exact Hb|].
    assert (Ea : nth g (data mn) (qz 0) = (qz A * pow2 (- r))%Qc). { rewrite (V1 g (qz 0)) in Ha by (rewrite N1; exact Hg). injection Ha as Ha. exact Ha. }
    assert (Eb : nth g (data mx) (qz 0) = (qz B * pow2 (- r))%Qc). { rewrite (V2 g (qz 0)) in Hb by (rewrite N2; exact Hg). injection Hb as Hb. exact Hb. }
    assert (Er : qround_even (nth g (data (q_fbw q)) (qz 0)) = r) by (apply nearest_even_fun in Fb; symmetry; exact Fb).
    split; [|split; [|split; assumption]]; intros e; unfold reg32; rewrite nth_map_seq by exact Hg; rewrite Ea, Eb, Er; f_equal; assumption. }
  split; [eexists; eexists; reflexivity|]. split; [|split].
  - assert (Q : exists m rest, reg_ok m rest (q_fbw q) /\ reg_ok m rest (q_min q) /\ reg_ok m rest (q_max q)).
    { destruct HO as [_ [[pre [rest [_ [_ [R1 [R2 R3]]]]]] _]]. exists (S (length pre)), rest. auto. }
    destruct Q as [m0 [rest [[F1 F2] [[A1 A2] [B1 B2]]]]].
    apply obj_ok_regs; auto; unfold with_minmax; cbn [q_fbw q_min q_max shape Tensor.data];
      first [congruence | unfold reg32; rewrite map_length, seq_length; reflexivity].
  - unfold wider_obj, with_paq, with_layer. cbv zeta. cbn [o_record o_act o_ins o_layer l_op l_relu l_loc l_out l_paq]. repeat (split; [reflexivity|]).
    fold q. split; [eexists; eexists; reflexivity|]. intros g Hg. destruct (PT g Hg) as (r & A & B & p & p' & Fb & Ha & Hb & Hp & Hp' & K1 & K2).
    cbn [with_minmax q_min q_max data]. rewrite Hp, Hp', Ha, Hb. cbn [ext_le]. split; apply Qcmult_le_compat_r; try (apply Qclt_le_weak, pow2_pos); apply qz_le; assumption.
  - intros g Hg. destruct (PT g Hg) as (r & A & B & p & p' & Fb & Ha & Hb & Hp & Hp' & K1 & K2). exists r, (qz p * pow2 (- r))%Qc, (qz p' * pow2 (- r))%Qc.
    split; [exact Fb|]. split; [split; [apply Hp|apply Hp']|]. split; eexists; reflexivity.
Qed.

Section T.
Variables (pw : Qc -> Qc) (ln2 : Qc) (acc : list (Qc * Qc) -> Qc) (eb eb' : store -> nat -> result Qc) (m : klayer layer) (n : nat) (ds : list (list sample)) (bsz : nat) (c : Qc)
  (st s5 s6 : store) (b1 b2 : Qc) (r1 r2 : list (list (list sample))).
Hypothesis HA : accumulator acc.
Hypothesis HO : Forall obj_ok st.
Hypothesis HL : leaves (supported st m) m.
Hypothesis HD : dataset n ds.
Hypothesis Hn : 0 < n.
Hypothesis Hb : 0 < bsz.
Hypothesis Hc1 : (qz 1 <= c)%Qc.
Hypothesis Hc2 : (c <= pow2 40)%Qc.
Hypothesis HE : forall B, In B (batches ds bsz) -> every_call pw ln2 st (layer_call_exact pw ln2 st) m B.
Hypothesis E5 : trace_minmax pw ln2 eb m ds bsz true (qz 1) false st = Ok (b1, r1, s5).
Hypothesis HR5 : forall i o, In i (top_layers m) -> nth_error s5 i = Some o -> roomy (l_paq (o_layer o)).
Hypothesis E6 : trace_minmax32 acc eb' m ds bsz true c false st = Ok (b2, r2, s6).

Let HL' : leaves hgq_layer m.
Proof. eapply leaves_impl; [|exact HL]. intros [u k] H. destruct k; exact I || exact H. Qed.

(** The steps of both runs. *)
Lemma both : exists s1 s2 s4 t3 t4, each start_obj (top_layers m) st = Ok s1 /\ feed pw ln2 m (batches ds bsz) s1 = Ok (r1, s2) /\ r2 = r1 /\
  each fix_obj (top_layers m) s2 = Ok s4 /\ count_bops eb (top_layers m) s4 = Ok (b1, s5) /\
  cover_step32 m c s2 = Ok t3 /\ each fix_obj (top_layers m) t3 = Ok t4 /\ count_bops eb' (top_layers m) t4 = Ok (b2, s6) /\ Forall obj_ok s2.
Proof.
  destruct (trace_split pw ln2 eb m ds bsz true (qz 1) false st b1 r1 s5 Hb E5) as [s4 [[s1 [s2 [s3 [E1 [E2 [E3 E4]]]]]] C]].
  unfold cover_step in E3. destruct (qeqb_spec (qz 1) (qz 1)) as [_|N]; [|congruence]. injection E3 as <-.
  pose proof (start_step m true st s1 HO E1) as O1. pose proof (feed_ok pw ln2 m n ds bsz s1 r1 s2 O1 HL' HD Hb E2) as O2.
  assert (A1 : alike st s1).
  { eapply (each_alike st start_obj); [|apply alike_refl; exact HO|exact E1].
    intros o o' Ho Eo. split; [eapply obj_ok_start; eassumption|]. unfold start_obj in Eo. injection Eo as <-. split; [|split; reflexivity].
    eexists. eexists. reflexivity. }
  pose proof E6 as E. unfold trace_minmax32 in E. rewrite E1 in E. cbn [rbind] in E. rewrite (proj2 (Nat.eqb_neq bsz 0)) in E by lia.
  rewrite (feed_exact pw ln2 acc HA st HO m _ s1 r1 s2 HL' A1 HE E2) in E. cbn [rbind fst snd] in E.
  apply rbind_ok in E. destruct E as [t3 [E3 E]]. apply rbind_ok in E. destruct E as [t4 [E4' E]]. apply rbind_ok in E. destruct E as [[d t5] [E5' E]]. cbn [fst snd] in E. injection E as -> <- <-.
  exists s1, s2, s4, t3, t4. repeat (split; [assumption || reflexivity|]). assumption.
Qed.

Lemma qmax_keep a x : (x <= a)%Qc -> qmax a x = a.
Proof. clear. intros H. unfold qmax. qcases; try reflexivity; apply Qcle_antisym; qlra. Qed.
Lemma qmin_keep a x : (a <= x)%Qc -> qmin a x = a.
Proof. clear. intros H. unfold qmin. qcases; try reflexivity; apply Qcle_antisym; qlra. Qed.

Lemma fed_room s1 s2 s4 : each start_obj (top_layers m) st = Ok s1 -> feed pw ln2 m (batches ds bsz) s1 = Ok (r1, s2) ->
  each fix_obj (top_layers m) s2 = Ok s4 -> count_bops eb (top_layers m) s4 = Ok (b1, s5) -> Forall obj_ok s2 ->
  forall i, In i (top_layers m) -> exists o o2, nth_error st i = Some o /\ nth_error s2 i = Some o2 /\ twin o o2 /\ forall g, g < ngroups (l_paq (o_layer o2)) ->
    exists r a b, room (l_paq (o_layer o2)) g r a b.
Proof.
  intros E1 E2 E4 C O2 i Hi. destruct (fed_bound pw ln2 m n ds bsz st HO HL HD Hn Hb s1 r1 s2 E1 E2 i Hi) as (o & o2 & X1 & X2 & T & FB).
  exists o, o2. split; [assumption|]. split; [assumption|]. split; [assumption|]. intros g Hg. destruct (FB g Hg) as (r & a & b & F & Hh & Ga & Gb & Lab & Ba & Bb).
  assert (Ok2 : obj_ok o2) by (rewrite Forall_forall in O2; apply O2; eapply nth_error_In, X2).
  destruct (each_spec _ _ (top_NoDup m) _ _ E4) as [_ [A4 _]]. destruct (A4 i Hi) as (o2_ & o4 & X2_ & Fx & X4). assert (o2_ = o2) by congruence. subst o2_.
  destruct (count_spec eb _ (top_NoDup m) _ _ _ C) as [_ [A5 _]]. destruct (A5 i Hi) as (o4_ & d & X4_ & X5). assert (o4_ = o4) by congruence. subst o4_.
  pose proof (HR5 i _ Hi X5) as RM. cbn [o_layer] in RM. destruct (fix_spec o2 o4 Ok2 Fx) as [[u [v S24]] [_ FS]]. specialize (FS g a b Hg Hh).
  assert (FB4 : frac_bits (l_paq (o_layer o4)) g r) by (rewrite S24; exact F). assert (Hg4 : g < length (data (q_fbw (l_paq (o_layer o4))))) by (rewrite S24; exact Hg).
  exists r, a, b.
  assert (R : (-32 <= r <= 93)%Z /\ (qabs a <= pow2 (22 - r))%Qc /\ (qabs b <= pow2 (22 - r))%Qc).
  { destruct (o_act o2); cbn [abound] in Ba, Bb; destruct (RM g Hg4 r _ _ FB4 FS) as [Q1 [Q2 Q3]]; (split; [exact Q1|]).
    - apply qabs_le_iff in Q3. split; apply qabs_le_iff; revert Q3 Ba Bb; clear; generalize (pow2 (22 - r)); intros p [] [] []; split; qlra.
    - rewrite qmax_keep in Q2 by apply Ba. rewrite qmin_keep in Q3 by apply Bb. auto.
    - rewrite qmax_keep in Q2 by apply Ba. rewrite qmin_keep in Q3 by apply Bb. auto.
    - auto.
    - auto. }
  destruct R as [Q1 [Q2 Q3]]. unfold room. auto 10.
Qed.

Lemma covered s1 s2 s4 t3 : each start_obj (top_layers m) st = Ok s1 -> feed pw ln2 m (batches ds bsz) s1 = Ok (r1, s2) ->
  each fix_obj (top_layers m) s2 = Ok s4 -> count_bops eb (top_layers m) s4 = Ok (b1, s5) -> Forall obj_ok s2 -> cover_step32 m c s2 = Ok t3 ->
  wider_store s2 t3 /\ Forall obj_ok t3 /\ forall i, In i (top_layers m) -> exists o o3, nth_error st i = Some o /\ nth_error t3 i = Some o3 /\ twin o o3 /\
    forall g, g < ngroups (l_paq (o_layer o3)) -> exists r a b, frac_bits (l_paq (o_layer o3)) g r /\ holds_range (l_paq (o_layer o3)) g a b /\ on_grid r a /\ on_grid r b.
Proof.
  intros E1 E2 E4 C O2 E3. pose proof (fed_room s1 s2 s4 E1 E2 E4 C O2) as FR.
  assert (ST : length t3 = length s2 /\ (forall i, In i (top_layers m) -> exists o2 o3, nth_error s2 i = Some o2 /\ nth_error t3 i = Some o3 /\ (o3 = o2 \/ cover_obj32 c o2 = Ok o3)) /\
    (forall i, ~ In i (top_layers m) -> nth_error t3 i = nth_error s2 i)).
  { unfold cover_step32 in E3. destruct (qeqb c (qz 1)).
    - injection E3 as <-. split; [reflexivity|]. split; [|reflexivity]. intros i Hi. destruct (FR i Hi) as (o & o2 & _ & X & _). exists o2, o2. auto.
    - destruct (qltb _ _); [|discriminate]. destruct (each_spec _ _ (top_NoDup m) _ _ E3) as [L [A B]]. split; [exact L|]. split; [|exact B].
      intros i Hi. destruct (A i Hi) as (o2 & o3 & X & Y & Z). exists o2, o3. auto. }
  destruct ST as [L [A B]]. rewrite Forall_nth_error in O2.
  assert (OB : forall i, In i (top_layers m) -> exists o o2 o3, nth_error st i = Some o /\ nth_error s2 i = Some o2 /\ nth_error t3 i = Some o3 /\ twin o o3 /\ wider_obj o2 o3 /\ obj_ok o3 /\
    forall g, g < ngroups (l_paq (o_layer o3)) -> exists r a b, frac_bits (l_paq (o_layer o3)) g r /\ holds_range (l_paq (o_layer o3)) g a b /\ on_grid r a /\ on_grid r b).
  { intros i Hi. destruct (A i Hi) as (o2 & o3 & X2 & X3 & H3). destruct (FR i Hi) as (o & o2_ & X1 & X2_ & T & RM). assert (o2_ = o2) by congruence. subst o2_.
    exists o, o2, o3. split; [assumption|]. split; [assumption|]. split; [assumption|]. destruct H3 as [->|H3].
    - split; [exact T|]. split; [apply wider_obj_refl|]. split; [apply (O2 i o2 X2)|]. intros g Hg. destruct (RM g Hg) as (r & a & b & R1 & _ & R3 & R4 & R5 & _). exists r, a, b. auto.
    - destruct (cover32_wider c o2 (O2 i o2 X2) Hc1 Hc2 RM) as (o3_ & H3_ & SB & Ok3 & W & GR). assert (o3_ = o3) by congruence. subst o3_.
      split; [eapply twin_trans; [exact T|apply twin_sbr, SB]|]. split; [exact W|]. split; [exact Ok3|]. destruct SB as [u [v SB]]. intros g Hg.
      assert (Hg2 : g < ngroups (l_paq (o_layer o2))) by (rewrite SB in Hg; exact Hg). destruct (GR g Hg2) as (r & a & b & R1 & R2 & R3 & R4). exists r, a, b. split; [rewrite SB; exact R1|auto]. }
  split; [|split].
  - split; [exact L|]. intros i o2 o3 X2 X3. destruct (in_dec Nat.eq_dec i (top_layers m)) as [Hi|Hi].
    + destruct (OB i Hi) as (o & o2_ & o3_ & _ & Y2 & Y3 & _ & W & _). assert (o2_ = o2) by congruence. assert (o3_ = o3) by congruence. subst. exact W.
    + rewrite (B i Hi) in X3. assert (o3 = o2) by congruence. subst. apply wider_obj_refl.
  - apply Forall_nth_error. intros i o3 X3. destruct (in_dec Nat.eq_dec i (top_layers m)) as [Hi|Hi].
    + destruct (OB i Hi) as (o & o2_ & o3_ & _ & Y2 & Y3 & _ & _ & K & _). assert (o3_ = o3) by congruence. subst. exact K.
    + rewrite (B i Hi) in X3. apply (O2 i o3 X3).
  - intros i Hi. destruct (OB i Hi) as (o & o2_ & o3_ & Y1 & Y2 & Y3 & T & _ & _ & K). exists o, o3_. auto.
Qed.

Lemma trace32_result : r2 = r1 /\ wider_store s5 s6 /\ Forall obj_ok s5 /\ Forall obj_ok s6 /\ leaves (supported s6 m) m /\
  ((forall i o, In i (top_layers m) -> nth_error s6 i = Some o -> in_bounds (l_paq (o_layer o))) ->
   prepared m s6 /\ forall B, batch_of n ds B -> inside pw ln2 m B s6).
Proof.
  destruct both as (s1 & s2 & s4 & t3 & t4 & E1 & E2 & ER & E4 & C & E3' & E4' & C' & O2).
  destruct (covered s1 s2 s4 t3 E1 E2 E4 C O2 E3') as [W3 [O3 G3]].
  assert (O4 : Forall obj_ok s4) by (eapply each_forall; [apply top_NoDup|exact O2|intros o o' X Y; apply (fix_spec o o' X Y)|exact E4]).
  assert (O4' : Forall obj_ok t4) by (eapply each_forall; [apply top_NoDup|exact O3|intros o o' X Y; apply (fix_spec o o' X Y)|exact E4']).
  assert (W4 : wider_store s4 t4) by (eapply (each_wider fix_obj); [apply top_NoDup|exact fix_wider|exact O2|exact O3|exact W3|exact E4|exact E4']).
  assert (W6 : wider_store s5 s6) by (eapply count_wider; [apply top_NoDup|exact W4|exact C|exact C']).
  assert (OC : forall e u b v, count_bops e (top_layers m) u = Ok (b, v) -> Forall obj_ok u -> Forall obj_ok v).
  { intros e u b v Ec Hu. destruct (count_spec e _ (top_NoDup m) _ _ _ Ec) as [_ [X [Y _]]]. rewrite Forall_nth_error in *. intros i o Ho. destruct (in_dec Nat.eq_dec i (top_layers m)) as [Hi|Hi].
    - destruct (X i Hi) as [o1 [d [Z1 Z2]]]. assert (o = mkO (o_layer o1) false (o_act o1) (o_ins o1) d) by congruence. subst o. exact (Hu i o1 Z1).
    - rewrite (Y i Hi) in Ho. eapply Hu, Ho. }
  pose proof (OC _ _ _ _ C O4) as O5. pose proof (OC _ _ _ _ C' O4') as O6.
  assert (TW : forall i, In i (top_layers m) -> exists o o3 o4 o6, nth_error st i = Some o /\ nth_error t3 i = Some o3 /\ fix_obj o3 = Ok o4 /\ nth_error s6 i = Some o6 /\
     o_layer o6 = o_layer o4 /\ o_record o6 = false /\ twin o o3 /\ twin o o6 /\ act_ok o /\
     forall g, g < ngroups (l_paq (o_layer o3)) -> exists r a b, frac_bits (l_paq (o_layer o3)) g r /\ holds_range (l_paq (o_layer o3)) g a b /\ on_grid r a /\ on_grid r b).
  { intros i Hi. destruct (G3 i Hi) as (o & o3 & X1 & X3 & T & GR).
    destruct (each_spec _ _ (top_NoDup m) _ _ E4') as [_ [A4 _]]. destruct (A4 i Hi) as (o3_ & o4 & X3_ & Fx & X4). assert (o3_ = o3) by congruence. subst o3_.
    destruct (count_spec eb' _ (top_NoDup m) _ _ _ C') as [_ [A5 _]]. destruct (A5 i Hi) as (o4_ & d & X4_ & X6). assert (o4_ = o4) by congruence. subst o4_.
    assert (Ok3 : obj_ok o3) by (rewrite Forall_forall in O3; apply O3; eapply nth_error_In, X3).
    pose proof (twin_sbr _ _ (proj1 (fix_spec o3 o4 Ok3 Fx))) as T34. pose proof (twin_trans _ _ _ T T34) as T4.
    eexists o, o3, o4, _. split; [exact X1|]. split; [exact X3|]. split; [exact Fx|]. split; [exact X6|]. split; [reflexivity|]. split; [reflexivity|]. split; [exact T|].
    split; [|split; [eapply top_act; eassumption|exact GR]]. destruct T4 as [U [V W]]. split; [exact U|]. split; assumption. }
  split; [exact ER|]. split; [exact W6|]. split; [exact O5|]. split; [exact O6|]. split.
  { eapply leaves_impl; [|exact HL]. intros [u k] Hx. unfold supported in *. cbn [snd] in *. destruct k; try exact Hx.
    - destruct Hx as [Hi [o [E0 Ha]]]. split; [exact Hi|]. destruct (TW _ Hi) as (o_ & o3 & o4 & o6 & X1 & _ & _ & X6 & _ & _ & _ & T & _). assert (o_ = o) by congruence. subst o_.
      exists o6. split; [exact X6|apply (twin_act _ _ T Ha)].
    - destruct Hx as [Hi [o [E0 [Ha [Hid Hre]]]]]. split; [exact Hi|]. destruct (TW _ Hi) as (o_ & o3 & o4 & o6 & X1 & _ & _ & X6 & _ & _ & _ & T & _). assert (o_ = o) by congruence. subst o_.
      exists o6. split; [exact X6|]. split; [apply (twin_act _ _ T Ha)|]. split; [apply (twin_id _ _ T Hid)|]. destruct T as [[a [b X]] _]. rewrite X. exact Hre. }
  intros HB6.
  assert (FIN : forall i o6, In i (top_layers m) -> nth_error s6 i = Some o6 -> forall g, g < ngroups (l_paq (o_layer o6)) ->
    exists r a b, frac_bits (l_paq (o_layer o6)) g r /\ holds_range (l_paq (o_layer o6)) g a b /\ on_grid r a /\ on_grid r b).
  { intros i o6 Hi X6 g Hg. destruct (TW i Hi) as (o & o3 & o4 & o6_ & X1 & X3 & Fx & X6_ & EL & _ & T3 & _ & Ac & GR). assert (o6_ = o6) by congruence. subst o6_.
    assert (Ok3 : obj_ok o3) by (rewrite Forall_forall in O3; apply O3; eapply nth_error_In, X3). pose proof (twin_act _ _ T3 Ac) as Ac3.
    destruct (fix_spec o3 o4 Ok3 Fx) as [[u [v S34]] [_ FS]]. rewrite EL in *.
    assert (Hg3 : g < ngroups (l_paq (o_layer o3))) by (rewrite S34 in Hg; exact Hg). destruct (GR g Hg3) as (r & a & b & F & Hh & Ga & Gb). specialize (FS g a b Hg3 Hh).
    pose proof (act_frac o3 g r Ac3 Hg3 F) as R0. exists r. change (- qz 1)%Qc with (qz (-1)) in FS.
    assert (F4 : frac_bits (l_paq (o_layer o4)) g r) by (rewrite S34; exact F).
    destruct (o_act o3); (eexists; eexists; split; [exact F4|]; split; [exact FS|]); split; try assumption; try apply grid_z, R0;
      (apply qmax_grid || apply qmin_grid); try assumption; apply grid_z, R0. }
  assert (HB5 : forall i o, In i (top_layers m) -> nth_error s5 i = Some o -> in_bounds (l_paq (o_layer o))).
  { intros i o5 Hi X5 g Hg r mn mx Fb Hh. destruct (TW i Hi) as (o & o3 & o4 & o6 & _ & _ & _ & X6 & _). destruct W6 as [_ W6]. pose proof (W6 i o5 o6 X5 X6) as WO.
    destruct WO as (_ & _ & _ & _ & _ & _ & _ & [u [v EQ]] & WR).
    assert (Hg6 : g < ngroups (l_paq (o_layer o6))) by (rewrite EQ; exact Hg). assert (F6 : frac_bits (l_paq (o_layer o6)) g r) by (rewrite EQ; exact Fb).
    destruct (FIN i o6 Hi X6 g Hg6) as (r' & a & b & _ & Hh6 & _). destruct (HB6 i o6 Hi X6 g Hg6 r a b F6 Hh6) as [B1 [B2 B3]]. destruct (WR g Hg) as [W1 W2].
    destruct Hh as [H1 H2], Hh6 as [K1 K2]. rewrite H1, K1 in W1. rewrite H2, K2 in W2. cbn [ext_le] in W1, W2. split; [exact B1|]. split; [exact (Qcle_trans _ _ _ B2 W1)|exact (Qcle_lt_trans _ _ _ W2 B3)]. }
  destruct (calibration pw ln2 eb m n ds bsz (qz 1) st s5 b1 r1 HO HL HD Hn Hb (Qcle_refl _) E5 HB5) as [st1 [st2 [O1 [HR [RV HT]]]]].
  split.
  - intros i Hi. destruct (TW i Hi) as (o & o3 & o4 & o6 & X1 & _ & _ & X6 & _ & Hr6 & _ & T6 & Ac & _). exists o6. split; [exact X6|]. split; [exact Hr6|]. intros g Hg.
    destruct (FIN i o6 Hi X6 g Hg) as (r & a & b & F & Hh & Ga & Gb). destruct (HB6 i o6 Hi X6 g Hg r a b F Hh) as [B1 [B2 B3]].
    destruct (HT i Hi) as [o_ [o1 [o5 [X1_ [_ [X5 [T1 [T5 [_ [_ [_ HC]]]]]]]]]]]. assert (o_ = o) by congruence. subst o_. destruct (HC (twin_act _ _ T1 Ac)) as [CAL _].
    destruct W6 as [_ W6]. destruct (W6 i o5 o6 X5 X6) as (_ & _ & _ & _ & _ & _ & _ & [u [v EQ]] & WR). assert (Hg5 : g < length (data (q_fbw (l_paq (o_layer o5))))) by (rewrite EQ in Hg; exact Hg).
    destruct (CAL g Hg5) as (r' & a5 & b5 & _ & _ & M1 & M2 & _ & _ & L5 & _). destruct (WR g Hg5) as [W1 W2]. destruct Hh as [K1 K2]. rewrite M1, K1 in W1. rewrite M2, K2 in W2. cbn [ext_le] in W1, W2.
    exists r, a, b. repeat (split; [assumption|]). split; [exact (Qcle_trans _ _ _ W1 (Qcle_trans _ _ _ L5 W2))|]. split; assumption.
  - intros B HBt. pose proof HBt as [js [Hjs [HJ EB]]].
    assert (LB : Forall (fun b => length b = length js) B). { subst B. apply Forall_forall. intros b Hb'. apply in_map_iff in Hb'. destruct Hb' as [d [<- _]]. apply map_length. }
    assert (NB : 0 < length js) by (destruct js; [congruence|cbn; lia]).
    apply (inside_wider pw ln2 s5 s6 m B (length js) O5 O6 HL' LB NB W6).
    exact (trace_inside pw ln2 eb m n ds bsz (qz 1) st s5 b1 r1 HO HL HD Hn Hb (Qcle_refl _) E5 HB5 B HBt).
Qed.
End T.
