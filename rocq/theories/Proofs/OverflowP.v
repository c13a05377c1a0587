(** A layer and its proxy on inputs outside the calibrated range. *)
From Coq Require Import ZArith Qcanon List Bool String Lia.
From Verif Require Import Base.Num Base.NumFacts Base.Tensor Model.FixedPoint Model.Quantizer Model.Layers
  Spec.Fixed Spec.Quant Spec.Layer Spec.Overflow Proofs.FixedPointP Proofs.FixedPointLayerP Proofs.TensorP Proofs.QuantizerP Proofs.BitsP Proofs.SampleP
  Proofs.ProxyElemP Proofs.LayersP.
Import ListNotations.
Local Open Scope string_scope.
Local Open Scope Z_scope.

Lemma gfixed_code rnd sat k i f z y m : k + i + f <> 0 ->
  (rnd = TRN /\ floor_on_grid f z y) \/ (rnd = RND /\ round_on_grid f z y) -> y = (qz m * pow2 (- f))%Qc ->
  gfixed_elem rnd sat k (k + i + f) (k + i) z = (sat (qz m) k (k + i + f)%Z * pow2 (- f))%Qc.
Proof.
  intros H HR E. rewrite gfixed_elem_nz by assumption.
  replace (k + i + f - (k + i)) with f by lia. replace (k + i - (k + i + f)) with (- f) in * by lia.
  assert (ER : rnd (z * pow2 f)%Qc = qz m) by (destruct HR as [[-> HR]|[-> HR]]; [eapply floor_TRN|eapply round_RND]; eassumption).
  rewrite ER. reflexivity.
Qed.

Lemma qabs_scale a p : (qz 0 < p)%Qc -> qabs (a * p)%Qc = (qabs a * p)%Qc.
Proof.
  intros P. destruct (qabs_spec (a * p)%Qc) as [[H ->]|[H ->]], (qabs_spec a) as [[A ->]|[A ->]]; try reflexivity.
  - assert (a * p < qz 0)%Qc by qnra. exfalso. qlra.
  - assert (qz 0 <= a * p)%Qc by qnra. exfalso. qlra.
  - ring.
Qed.

Lemma over_code S sat k i f m : S = "WRAP" \/ S = "SAT" -> SAT_MAP S = Some sat -> k = 0 \/ k = 1 -> 0 <= i + f ->
  overflow_value S k i f (qz m * pow2 (- f))%Qc (sat (qz m) k (k + i + f)%Z * pow2 (- f))%Qc.
Proof.
  intros HS Hsat Hk H1.
  assert (B : k <= k + i + f) by lia. assert (P := pow2_pos (- f)).
  assert (FC : forall c, code k (k + i + f) c <-> fits k i f (qz c * pow2 (- f))%Qc).
  { intros c. rewrite fits_code by assumption. split; [intros [A C]; split; [exists c; reflexivity|auto]|intros [_ [A C]]; auto]. }
  destruct HS as [->| ->]; cbn in Hsat; injection Hsat as <-.
  - rewrite WRAP_qz by assumption. set (c := (m - lo k (k + i + f)) mod 2 ^ (k + i + f) + lo k (k + i + f)).
    assert (Q : 0 < 2 ^ (k + i + f)) by (apply Z.pow_pos_nonneg; lia).
    pose proof (Z.mod_pos_bound (m - lo k (k + i + f)) _ Q) as MB. pose proof (hi_lo k (k + i + f) Hk B) as HL.
    split; [apply FC, code_iff; [assumption|assumption|unfold c; lia]|]. left. split; [reflexivity|].
    exists ((m - lo k (k + i + f)) / 2 ^ (k + i + f)).
    assert (E : pow2 (k + i) = (qz (2 ^ (k + i + f)) * pow2 (- f))%Qc) by (rewrite <- pow2_Z by lia; rewrite <- pow2_add; f_equal; lia).
    rewrite E. rewrite Qcmult_assoc, <- Qcmult_plus_distr_l, <- qz_mul, <- qz_add. f_equal. f_equal. unfold c.
    pose proof (Z.div_mod (m - lo k (k + i + f)) (2 ^ (k + i + f)) ltac:(lia)). lia.
  - rewrite SAT_qz by assumption. set (c := Z.max (Z.min m (hi k (k + i + f))) (lo k (k + i + f))).
    assert (Q : 0 < 2 ^ (k + i + f)) by (apply Z.pow_pos_nonneg; lia). pose proof (hi_lo k (k + i + f) Hk B) as HL.
    split; [apply FC, code_iff; [assumption|assumption|unfold c; lia]|]. right. split; [reflexivity|].
    intros u Hu. pose proof Hu as [[n ->] _]. apply FC, code_iff in Hu; [|assumption|assumption].
    replace (qz m * pow2 (- f) - qz c * pow2 (- f))%Qc with (qz (m - c) * pow2 (- f))%Qc by (rewrite qz_sub; ring).
    replace (qz m * pow2 (- f) - qz n * pow2 (- f))%Qc with (qz (m - n) * pow2 (- f))%Qc by (rewrite qz_sub; ring).
    rewrite !qabs_scale by exact P. apply qmul_le_r; [apply Qclt_le_weak, P|].
    assert (A : forall a, qabs (qz a) = qz (Z.abs a)).
    { intros a. destruct (qabs_spec (qz a)) as [[H ->]|[H ->]].
      - change (qz 0) with (qz 0) in H. apply (proj1 (qz_le _ _)) in H. f_equal. lia.
      - apply (proj1 (qz_lt _ _)) in H. rewrite <- qz_opp. f_equal. lia. }
    rewrite !A. apply qz_le. unfold c. lia.
Qed.

Lemma gfixed_over rnd sat S k i f z y : S = "WRAP" \/ S = "SAT" -> SAT_MAP S = Some sat -> k = 0 \/ k = 1 -> 0 <= i + f -> k + i + f <> 0 ->
  (rnd = TRN /\ floor_on_grid f z y) \/ (rnd = RND /\ round_on_grid f z y) ->
  overflow_value S k i f y (gfixed_elem rnd sat k (k + i + f) (k + i) z).
Proof.
  intros HS Hsat Hk H1 H2 HR. assert (G : on_grid f y) by (destruct HR as [[_ HR]|[_ HR]]; apply HR). destruct G as [m E].
  rewrite (gfixed_code rnd sat k i f z y m H2 HR E). rewrite E. apply over_code; assumption.
Qed.

(** Saturation as clamping. *)
Lemma gfixed_sat rnd k i f z y : k = 0 \/ k = 1 -> 0 <= i + f -> k + i + f <> 0 ->
  (rnd = TRN /\ floor_on_grid f z y) \/ (rnd = RND /\ round_on_grid f z y) ->
  gfixed_elem rnd SAT k (k + i + f) (k + i) z = qmax (qmin y (pow2 i - pow2 (- f))%Qc) (- (qz k * pow2 i))%Qc.
Proof.
  intros Hk H1 H2 HR. assert (G : on_grid f y) by (destruct HR as [[_ HR]|[_ HR]]; apply HR). destruct G as [m E].
  rewrite (gfixed_code rnd SAT k i f z y m H2 HR E). rewrite E. rewrite SAT_qz by lia. unfold hi, lo. replace (k + i + f - k) with (i + f) by lia.
  assert (P := pow2_pos (- f)).
  assert (EI : pow2 i = (qz (2 ^ (i + f)) * pow2 (- f))%Qc) by (rewrite <- pow2_Z by lia; rewrite <- pow2_add; f_equal; lia).
  assert (E1 : (pow2 i - pow2 (- f))%Qc = (qz (2 ^ (i + f) - 1) * pow2 (- f))%Qc) by (rewrite EI, qz_sub; change (qz 1) with (Q2Qc 1); ring).
  assert (E2 : (- (qz k * pow2 i))%Qc = (qz (- (k * 2 ^ (i + f))) * pow2 (- f))%Qc) by (rewrite EI, qz_opp, qz_mul; ring).
  rewrite E1, E2. set (a := 2 ^ (i + f) - 1). set (b := - (k * 2 ^ (i + f))).
  assert (MIN : qmin (qz m * pow2 (- f)) (qz a * pow2 (- f)) = (qz (Z.min m a) * pow2 (- f))%Qc).
  { destruct (Z.le_gt_cases m a) as [L|L].
    - rewrite Z.min_l by lia. assert (qz m * pow2 (- f) <= qz a * pow2 (- f))%Qc by (apply qmul_le_r; [apply Qclt_le_weak, P|apply qz_le; exact L]).
      unfold qmin. destruct (qleb_spec (qz m * pow2 (- f)) (qz a * pow2 (- f))); [reflexivity|exfalso; qlra].
    - rewrite Z.min_r by lia. assert (qz a * pow2 (- f) < qz m * pow2 (- f))%Qc by (apply qmul_lt_r; [exact P|apply qz_lt; lia]).
      unfold qmin. destruct (qleb_spec (qz m * pow2 (- f)) (qz a * pow2 (- f))); [exfalso; qlra|reflexivity]. }
  rewrite MIN. set (n := Z.min m a).
  destruct (qmax_spec (qz n * pow2 (- f)) (qz b * pow2 (- f)))%Qc as [[L ->]|[L ->]].
  - f_equal. f_equal. apply qmul_le_r_inv in L; [|exact P]. apply (proj1 (qz_le _ _)) in L. lia.
  - f_equal. f_equal. apply qmul_lt_r_inv in L; [|exact P]. apply (proj1 (qz_lt _ _)) in L. lia.
Qed.

(** ** The ReLU chain *)
Lemma grid_relu r y : on_grid r y -> on_grid r (relu y).
Proof. intros H. unfold relu. destruct (qmax_spec y (qz 0)) as [[_ ->]|[_ ->]]; [apply grid_0|exact H]. Qed.
Lemma floor_0 r : floor_on_grid r (qz 0) (qz 0).
Proof. assert (P := pow2_pos (- r)). split; [apply grid_0|]. split; qlra. Qed.
Lemma round_0 r : round_on_grid r (qz 0) (qz 0).
Proof. assert (P := pow2_pos (- r - 1)). split; [apply grid_0|]. split; qlra. Qed.
Lemma qmax_0 x : (qz 0 <= x)%Qc -> qmax x (- (qz 0 * pow2 0))%Qc = x.
Proof. intros H. rewrite qz0_mul. destruct (qmax_spec x (- qz 0)%Qc) as [[L ->]|[_ ->]]; [apply Qcle_antisym; qlra|reflexivity]. Qed.
Lemma second_sat rnd i r x y : - r < i -> (qz 0 <= y)%Qc ->
  (rnd = TRN /\ floor_on_grid r x y) \/ (rnd = RND /\ round_on_grid r x y) ->
  gfixed_elem rnd SAT 0 (i + r) i x = qmin y (pow2 i - pow2 (- r))%Qc.
Proof.
  intros Hi Hy HR. replace (i + r) with (0 + i + r) by lia. replace i with (0 + i) at 2 by lia.
  rewrite (gfixed_sat rnd 0 i r x y) by (auto; lia). rewrite !qz0_mul.
  assert (A : (pow2 (- r) <= pow2 i)%Qc) by (apply pow2_le; lia).
  destruct (qmax_spec (qmin y (pow2 i - pow2 (- r))) (- qz 0))%Qc as [[L ->]|[_ ->]]; [|reflexivity].
  destruct (qmin_spec y (pow2 i - pow2 (- r))%Qc) as [[B E]|[B E]]; rewrite E in *; apply Qcle_antisym; qlra.
Qed.

Lemma relu_sat_trn K I F i r z y : K = 0 \/ K = 1 -> r <= F -> i <= I -> - r < i -> floor_on_grid r z y ->
  gfixed_elem TRN SAT 0 (i + r) i (relu (gfixed_elem TRN SAT K (K + I + F) (K + I) z)) = qmin (relu y) (pow2 i - pow2 (- r))%Qc.
Proof.
  intros HK HrF HiI Hi Hz. destruct (finer_floor F z) as [w Hw].
  rewrite (gfixed_sat TRN K I F z w) by (auto; lia).
  assert (PI := pow2_pos I). assert (PF := pow2_pos (- F)). assert (PR := pow2_pos (- r)).
  assert (KI : (- (qz K * pow2 I) <= qz 0)%Qc) by (destruct HK as [->| ->]; [rewrite qz0_mul|rewrite qz1_mul]; qlra).
  assert (IF : (pow2 (- F) <= pow2 I)%Qc) by (apply pow2_le; lia).
  assert (FR : (pow2 (- F) <= pow2 (- r))%Qc) by (apply pow2_le; lia).
  assert (II : (pow2 i <= pow2 I)%Qc) by (apply pow2_le; lia).
  assert (IR : (pow2 (- r) <= pow2 i)%Qc) by (apply pow2_le; lia).
  pose proof Hz as [Gy [Z1 Z2]]. pose proof Hw as [Gw [W1 W2]].
  assert (Yw : (y <= w)%Qc) by (apply (floor_ge F z); [exact Hw|apply (grid_weaken r); assumption|exact Z1]).
  destruct (Qclt_le_dec y (qz 0)) as [N|N].
  - assert (Yr : (y + pow2 (- r) <= qz 0)%Qc) by (apply grid_lt_le; [exact Gy|apply grid_0|exact N]).
    assert (A : (qmax (qmin w (pow2 I - pow2 (- F))) (- (qz K * pow2 I)) <= qz 0)%Qc).
    { destruct (qmax_spec (qmin w (pow2 I - pow2 (- F))) (- (qz K * pow2 I)))%Qc as [[_ ->]|[_ ->]]; [exact KI|].
      destruct (qmin_spec w (pow2 I - pow2 (- F))%Qc) as [[B ->]|[B ->]]; qlra. }
    rewrite (relu_nonpos _ A). rewrite (relu_nonpos y) by qlra.
    apply second_sat; [exact Hi|apply Qcle_refl|left; split; [reflexivity|apply floor_0]].
  - rewrite (relu_nonneg y) by exact N.
    destruct (qmin_spec w (pow2 I - pow2 (- F))%Qc) as [[B ->]|[B ->]].
    + assert (E : qmax w (- (qz K * pow2 I))%Qc = w) by (destruct (qmax_spec w (- (qz K * pow2 I))%Qc) as [[L ->]|[_ ->]]; [apply Qcle_antisym; qlra|reflexivity]).
      rewrite E, relu_nonneg by qlra. apply second_sat; [exact Hi|exact N|]. left. split; [reflexivity|]. split; [exact Gy|]. split; qlra.
    + assert (E : qmax (pow2 I - pow2 (- F)) (- (qz K * pow2 I))%Qc = (pow2 I - pow2 (- F))%Qc)
        by (destruct (qmax_spec (pow2 I - pow2 (- F)) (- (qz K * pow2 I)))%Qc as [[L ->]|[_ ->]]; [apply Qcle_antisym; qlra|reflexivity]).
      rewrite E, relu_nonneg by qlra.
      assert (W3 : (pow2 I <= w)%Qc).
      { assert (Q : (pow2 I - pow2 (- F) + pow2 (- F) <= w)%Qc); [|qlra]. apply grid_lt_le; [|exact Gw|exact B]. apply grid_sub; apply grid_pow2; lia. }
      assert (Y3 : (pow2 I <= y)%Qc) by (apply (floor_ge r z); [exact Hz|apply grid_pow2; lia|qlra]).
      destruct (finer_floor r (pow2 I - pow2 (- F))%Qc) as [u Hu].
      assert (U : (pow2 i - pow2 (- r) <= u)%Qc) by (apply (floor_ge r (pow2 I - pow2 (- F))%Qc); [exact Hu|apply grid_sub; apply grid_pow2; lia|qlra]).
      rewrite (second_sat TRN i r _ u) by (auto; qlra).
      destruct (qmin_spec u (pow2 i - pow2 (- r))%Qc) as [[C1 ->]|[_ ->]], (qmin_spec y (pow2 i - pow2 (- r))%Qc) as [[C2 ->]|[_ ->]]; try reflexivity; apply Qcle_antisym; qlra.
Qed.

Lemma relu_sat_rnd K I F i r z y : K = 0 \/ K = 1 -> r <= F -> i <= I -> - r < i -> round_on_grid r z y ->
  gfixed_elem RND SAT 0 (i + r) i (relu (gfixed_elem TRN SAT K (K + I + F + 1) (K + I) z)) = qmin (relu y) (pow2 i - pow2 (- r))%Qc.
Proof.
  intros HK HrF HiI Hi Hz. destruct (finer_floor (F + 1) z) as [w Hw].
  replace (K + I + F + 1) with (K + I + (F + 1)) by lia.
  rewrite (gfixed_sat TRN K I (F + 1) z w) by (auto; lia).
  assert (PI := pow2_pos I). assert (PF := pow2_pos (- (F + 1))). assert (PR := pow2_pos (- r - 1)). assert (PH := pow2_half r).
  assert (KI : (- (qz K * pow2 I) <= qz 0)%Qc) by (destruct HK as [->| ->]; [rewrite qz0_mul|rewrite qz1_mul]; qlra).
  assert (IF : (pow2 (- (F + 1)) <= pow2 I)%Qc) by (apply pow2_le; lia).
  assert (FR : (pow2 (- (F + 1)) <= pow2 (- r - 1))%Qc) by (apply pow2_le; lia).
  assert (II : (pow2 i <= pow2 I)%Qc) by (apply pow2_le; lia).
  assert (IR : (pow2 (- r) <= pow2 i)%Qc) by (apply pow2_le; lia).
  pose proof Hz as [Gy [Z1 Z2]]. pose proof Hw as [Gw [W1 W2]].
  assert (Yw : (y - pow2 (- r - 1) <= w)%Qc).
  { apply (floor_ge (F + 1) z); [exact Hw|apply grid_sub; [apply (grid_weaken r); [lia|exact Gy]|apply grid_pow2; lia]|qlra]. }
  destruct (Qclt_le_dec y (qz 0)) as [N|N].
  - assert (Yr : (y + pow2 (- r) <= qz 0)%Qc) by (apply grid_lt_le; [exact Gy|apply grid_0|exact N]).
    assert (A : (qmax (qmin w (pow2 I - pow2 (- (F + 1)))) (- (qz K * pow2 I)) <= qz 0)%Qc).
    { destruct (qmax_spec (qmin w (pow2 I - pow2 (- (F + 1)))) (- (qz K * pow2 I)))%Qc as [[_ ->]|[_ ->]]; [exact KI|].
      destruct (qmin_spec w (pow2 I - pow2 (- (F + 1)))%Qc) as [[B ->]|[B ->]]; qlra. }
    rewrite (relu_nonpos _ A). rewrite (relu_nonpos y) by qlra.
    apply second_sat; [exact Hi|apply Qcle_refl|right; split; [reflexivity|apply round_0]].
  - rewrite (relu_nonneg y) by exact N.
    destruct (qmin_spec w (pow2 I - pow2 (- (F + 1)))%Qc) as [[B ->]|[B ->]].
    + destruct (Qclt_le_dec w (qz 0)) as [W0|W0].
      * assert (y = qz 0) as ->.
        { destruct (Qclt_le_dec (qz 0) y) as [C|C]; [|apply Qcle_antisym; assumption].
          pose proof (grid_lt_le r _ _ (grid_0 r) Gy C). exfalso. qlra. }
        assert (A : (qmax w (- (qz K * pow2 I)) <= qz 0)%Qc) by (destruct (qmax_spec w (- (qz K * pow2 I))%Qc) as [[_ ->]|[_ ->]]; qlra).
        rewrite (relu_nonpos _ A). apply second_sat; [exact Hi|apply Qcle_refl|right; split; [reflexivity|apply round_0]].
      * assert (E : qmax w (- (qz K * pow2 I))%Qc = w) by (destruct (qmax_spec w (- (qz K * pow2 I))%Qc) as [[L ->]|[_ ->]]; [apply Qcle_antisym; qlra|reflexivity]).
        rewrite E, relu_nonneg by qlra. apply second_sat; [exact Hi|exact N|]. right. split; [reflexivity|]. split; [exact Gy|]. split; qlra.
    + assert (E : qmax (pow2 I - pow2 (- (F + 1))) (- (qz K * pow2 I))%Qc = (pow2 I - pow2 (- (F + 1)))%Qc)
        by (destruct (qmax_spec (pow2 I - pow2 (- (F + 1))) (- (qz K * pow2 I)))%Qc as [[L ->]|[_ ->]]; [apply Qcle_antisym; qlra|reflexivity]).
      rewrite E, relu_nonneg by qlra.
      assert (W3 : (pow2 I <= w)%Qc).
      { assert (Q : (pow2 I - pow2 (- (F + 1)) + pow2 (- (F + 1)) <= w)%Qc); [|qlra]. apply grid_lt_le; [|exact Gw|exact B]. apply grid_sub; apply grid_pow2; lia. }
      assert (GI : on_grid r (pow2 I)) by (apply grid_pow2; lia).
      assert (Y3 : (pow2 I <= y)%Qc).
      { destruct (Qclt_le_dec y (pow2 I)) as [C|C]; [|exact C]. pose proof (grid_lt_le r _ _ Gy GI C). exfalso. qlra. }
      assert (exists u, round_on_grid r (pow2 I - pow2 (- (F + 1)))%Qc u) as [u Hu] by (eexists; apply round_scaled).
      pose proof Hu as [Gu [U1 U2]].
      assert (U : (pow2 i <= u)%Qc).
      { destruct (Qclt_le_dec u (pow2 i)) as [C|C]; [|exact C]. assert (Gi : on_grid r (pow2 i)) by (apply grid_pow2; lia).
        pose proof (grid_lt_le r _ _ Gu Gi C). exfalso. qlra. }
      rewrite (second_sat RND i r _ u) by (auto; qlra).
      destruct (qmin_spec u (pow2 i - pow2 (- r))%Qc) as [[C1 ->]|[_ ->]], (qmin_spec y (pow2 i - pow2 (- r))%Qc) as [[C2 ->]|[_ ->]]; try reflexivity; apply Qcle_antisym; qlra.
Qed.

Lemma min_over i r y : - r < i -> on_grid r y -> (qz 0 <= y)%Qc -> overflow_value "SAT" 0 i r y (qmin y (pow2 i - pow2 (- r))%Qc).
Proof.
  intros Hi Gy Hy.
  assert (F : floor_on_grid r y y) by (assert (P := pow2_pos (- r)); split; [exact Gy|split; qlra]).
  rewrite <- (second_sat TRN i r y y Hi Hy) by auto. replace (i + r) with (0 + i + r) by lia. replace i with (0 + i) at 3 by lia.
  apply gfixed_over; auto; lia.
Qed.

Lemma relu_wrap_trn K I F i r z y : K = 0 \/ K = 1 -> r <= F -> i <= I -> - r < i -> floor_on_grid r z y ->
  (- (qz K * pow2 I) <= y)%Qc -> (y < pow2 I)%Qc ->
  overflow_value "WRAP" 0 i r (relu y) (gfixed_elem TRN WRAP 0 (i + r) i (relu (gfixed_elem TRN WRAP K (K + I + F) (K + I) z))).
Proof.
  intros HK HrF HiI Hi Hz L U. destruct (finer_floor F z) as [w Hw].
  assert (PI := pow2_pos I). assert (PR := pow2_pos (- r)).
  pose proof Hz as [Gy [Z1 Z2]]. pose proof Hw as [Gw [W1 W2]].
  assert (Yw : (y <= w)%Qc) by (apply (floor_ge F z); [exact Hw|apply (grid_weaken r); assumption|exact Z1]).
  assert (YI : (y + pow2 (- r) <= pow2 I)%Qc) by (apply grid_lt_le; [exact Gy|apply grid_pow2; lia|exact U]).
  assert (Ew : gfixed_elem TRN WRAP K (K + I + F) (K + I) z = w).
  { apply (gfixed_hit TRN WRAP "WRAP"); auto; try lia. split; [exact Gw|split; qlra]. }
  rewrite Ew.
  replace (i + r) with (0 + i + r) by lia. replace i with (0 + i) at 3 by lia.
  apply gfixed_over; auto; [lia|lia|]. left. split; [reflexivity|].
  destruct (Qclt_le_dec y (qz 0)) as [N|N].
  - assert (Yr : (y + pow2 (- r) <= qz 0)%Qc) by (apply grid_lt_le; [exact Gy|apply grid_0|exact N]).
    rewrite !relu_nonpos by qlra. apply floor_0.
  - rewrite !relu_nonneg by qlra. split; [exact Gy|split; qlra].
Qed.

Lemma relu_wrap_rnd K I F i r z y : K = 0 \/ K = 1 -> r <= F -> i <= I -> - r < i -> round_on_grid r z y ->
  (- (qz K * pow2 I) <= y)%Qc -> (y < pow2 I)%Qc ->
  overflow_value "WRAP" 0 i r (relu y) (gfixed_elem RND WRAP 0 (i + r) i (relu (gfixed_elem TRN WRAP K (K + I + F + 1) (K + I) z))).
Proof.
  intros HK HrF HiI Hi Hz L U.
  assert (PI := pow2_pos I). assert (PR := pow2_pos (- r - 1)). assert (PH := pow2_half r).
  pose proof Hz as [Gy [Z1 Z2]].
  destruct (Qclt_le_dec (qz 0) y) as [N|N].
  - destruct (finer_floor (F + 1) z) as [w Hw]. pose proof Hw as [Gw [W1 W2]].
    assert (Yw : (y - pow2 (- r - 1) <= w)%Qc).
    { apply (floor_ge (F + 1) z); [exact Hw|apply grid_sub; [apply (grid_weaken r); [lia|exact Gy]|apply grid_pow2; lia]|qlra]. }
    assert (Y1 : (qz 0 + pow2 (- r) <= y)%Qc) by (apply grid_lt_le; [apply grid_0|exact Gy|exact N]).
    assert (YI : (y + pow2 (- r) <= pow2 I)%Qc) by (apply grid_lt_le; [exact Gy|apply grid_pow2; lia|exact U]).
    assert (KI : (- (qz K * pow2 I) <= qz 0)%Qc) by (destruct HK as [->| ->]; [rewrite qz0_mul|rewrite qz1_mul]; qlra).
    replace (K + I + F + 1) with (K + I + (F + 1)) by lia.
    assert (Ew : gfixed_elem TRN WRAP K (K + I + (F + 1)) (K + I) z = w).
  { apply (gfixed_hit TRN WRAP "WRAP"); auto; try lia. split; [exact Gw|split; qlra]. }
  rewrite Ew.
    replace (i + r) with (0 + i + r) by lia. replace i with (0 + i) at 3 by lia.
    apply gfixed_over; auto; [lia|lia|]. right. split; [reflexivity|]. rewrite !relu_nonneg by qlra. split; [exact Gy|split; qlra].
  - rewrite (relu_chain_rnd WRAP "WRAP" K I F i r (qz 0) z y (or_introl eq_refl) eq_refl HK HrF HiI Hi ltac:(lia) Hz
      (conj (grid_weaken r F y HrF Gy) (conj L U)) N (pow2_pos i)).
    rewrite relu_nonpos by exact N. assert (P := pow2_pos i). split; [|left; split; [reflexivity|]].
    + split; [apply grid_0|]. rewrite qz0_mul. split; qlra.
    + exists 0. rewrite qz0_mul. change (qz 0) with (Q2Qc 0). ring.
Qed.

(** ** Elements of a layer *)
Lemma elem_one_any l sat S e z z' : let q := l_paq l in let g := group_of q (l_out l) e in
  l_relu l = false -> S = "WRAP" \/ S = "SAT" -> SAT_MAP S = Some sat -> calibrated q -> (g < List.length (data (q_fbw q)))%nat ->
  let y := qval (q_strategy q) (nth g (data (q_fbw q)) (qz 0)) z in
  (0 < abw_at l e -> z' = (z + shift_at l e)%Qc) ->
  let v := fval (rnd_fun l) sat (init_elem (kbi (bits_at q false g))) z' in
  let '(k, i, f) := bits_at q false g in
  if k + i + f =? 0 then v = qz 0 else overflow_value S k i f y v.
Proof.
  intros q g HR HS Hsat HC Hg y Hz v.
  destruct (group_bits q g HC Hg) as [r [mn [mx [Hr [Hb [E1 [E2 [G1 [G2 [Hle [B1 [B2 [D _]]]]]]]]]]]]].
  destruct D as [[-> [-> EB]]|[NZ [k [i [EB [Hk [Hi [Hki [Lo [Up _]]]]]]]]]].
  - unfold v. rewrite EB, init_kbi_zero. unfold fval. cbn [kn bits ints]. rewrite gfixed_elem_z. reflexivity.
  - assert (P : 0 < k + i + r) by (destruct Hk as [->| ->]; [specialize (Hki eq_refl); lia|lia]).
    unfold v. rewrite EB, init_kbi by lia. unfold fval. cbn [kn bits ints].
    assert (A : 0 < abw_at l e).
    { unfold abw_at. fold q. fold g. rewrite HR, E1, E2. cbn [fin].
      apply (abw_norelu_pos q g _ r mn mx k i); try assumption. unfold bits_at. rewrite E1, E2. reflexivity. }
    rewrite (Hz A). destruct (Z.eqb_spec (k + i + r) 0) as [C|_]; [lia|].
    pose proof (rounding_agrees l e z r Hr) as RA. cbv zeta in RA. fold q in RA. fold g in RA. fold y in RA.
    apply gfixed_over; try assumption; lia.
Qed.

Lemma chain_bounds l bits : let q := l_paq l in calibrated q ->
  List.length bits = List.length (data (q_fbw q)) -> (forall g d, (g < List.length (data (q_fbw q)))%nat -> nth g bits d = bits_at q false g) ->
  forall g k i r, (g < List.length (data (q_fbw q)))%nat -> bits_at q false g = (k, i, r) ->
  let K := zmax_list (map (fun t => fst (fst t)) bits) in
  let I := zmax_list (map (fun t => snd (fst t)) bits) in
  let F := zmax_list (map snd bits) in
  (K = 0 \/ K = 1) /\ k <= K /\ i <= I <= 32 /\ r <= F <= 93.
Proof.
  intros q HC LB HB g k i r Hg EB K I F.
  assert (INB : In (k, i, r) bits) by (rewrite <- EB, <- (HB g (0, 0, 0) Hg); apply nth_In; lia).
  assert (BND : forall t, In t bits -> (fst (fst t) <= 1 /\ snd (fst t) <= 32 /\ snd t <= 93) /\ (fst (fst t) = 0 \/ fst (fst t) = 1)).
  { intros t Ht. apply (In_nth _ _ (0, 0, 0)) in Ht. destruct Ht as [g' [Hg' Et]]. rewrite LB in Hg'. rewrite HB in Et by assumption.
    destruct (group_bits q g' HC Hg') as [r' [mn'' [mx'' [_ [Hb' [_ [_ [_ [_ [_ [_ [_ [D' _]]]]]]]]]]]]].
    destruct D' as [[_ [_ E]]|[_ [k' [i' [E [Hk' [Hi' _]]]]]]]; rewrite E in Et; subst t; cbn [fst snd]; lia. }
  assert (NEm : forall f : Z * Z * Z -> Z, map f bits <> []) by (intros f C; apply map_eq_nil in C; rewrite C in INB; destruct INB).
  repeat split.
  - pose proof (zmax_list_in _ (NEm (fun t => fst (fst t)))) as H. apply in_map_iff in H. destruct H as [t [Et Ht]].
    unfold K. rewrite <- Et. apply BND, Ht.
  - apply zmax_list_ge; apply (in_map (fun t : Z * Z * Z => fst (fst t)) bits (k, i, r)); exact INB.
  - apply zmax_list_ge; apply (in_map (fun t : Z * Z * Z => snd (fst t)) bits (k, i, r)); exact INB.
  - apply zmax_le; [apply NEm|]; intros x Hx; apply in_map_iff in Hx; destruct Hx as [t [<- Ht]]; apply BND, Ht.
  - apply zmax_list_ge; apply (in_map (snd (A := Z * Z) (B := Z)) bits (k, i, r)); exact INB.
  - apply zmax_le; [apply NEm|]; intros x Hx; apply in_map_iff in Hx; destruct Hx as [t [<- Ht]]; apply BND, Ht.
Qed.

Lemma elem_two_any l sat S e z z' bits : let q := l_paq l in let g := group_of q (l_out l) e in
  l_relu l = true -> S = "WRAP" \/ S = "SAT" -> SAT_MAP S = Some sat -> calibrated q -> (g < List.length (data (q_fbw q)))%nat ->
  List.length bits = List.length (data (q_fbw q)) -> (forall g d, (g < List.length (data (q_fbw q)))%nat -> nth g bits d = bits_at q false g) ->
  let y := qval (q_strategy q) (nth g (data (q_fbw q)) (qz 0)) z in
  (0 < abw_at l e -> z' = (z + shift_at l e)%Qc) ->
  let K := zmax_list (map (fun t => fst (fst t)) bits) in
  let I := zmax_list (map (fun t => snd (fst t)) bits) in
  let F := zmax_list (map snd bits) in
  let fadd := if String.eqb (rnd_mode l) "TRN" then 0 else if String.eqb (rnd_mode l) "RND" then 1 else 2 in
  (S = "WRAP" -> (- (qz K * pow2 I) <= y)%Qc /\ (y < pow2 I)%Qc) ->
  let v := fval (rnd_fun l) sat (init_elem (kbi (bits_at q true g)))
    (relu (fval TRN sat (init_elem (mkCfg K (i8 (i8 (i8 (K + I) + F) + fadd)) (i8 (K + I)))) z')) in
  let '(k, i, f) := bits_at q true g in
  if k + i + f =? 0 then v = qz 0 else overflow_value S k i f (relu y) v.
Proof.
  intros q g HR HS Hsat HC Hg LB HB y Hz K I F fadd HW v.
  destruct (group_bits q g HC Hg) as [r [mn [mx [Hr [Hb [E1 [E2 [G1 [G2 [Hle [B1 [B2 [D DP]]]]]]]]]]]]].
  destruct DP as [[Mx EP]|[Mx [EP FB]]].
  - unfold v. rewrite EP. cbn [Z.eqb Z.add]. rewrite init_kbi_zero, zero_width_relu by reflexivity. reflexivity.
  - unfold v. rewrite EP. rewrite init_kbi by lia. rewrite Z.add_0_l.
    destruct D as [[-> [-> _]]|[NZ [k [i [EB [Hk [Hi [Hki [Lo [Up _]]]]]]]]]]; [exfalso; qlra|].
    destruct (chain_bounds l bits HC LB HB g k i r Hg EB) as [KU [KB [[IB IU] [FBd FU]]]]. fold K in KU, KB. fold I in IB, IU. fold F in FBd, FU.
    assert (FA : (rnd_fun l = TRN /\ fadd = 0) \/ (rnd_fun l = RND /\ fadd = 1)).
    { unfold fadd, rnd_mode, rnd_fun. destruct (_ && _)%bool; [right|left]; split; reflexivity. }
    assert (FI : flog2 mx + 1 <= i).
    { assert (flog2 mx < i); [|lia]. destruct (flog2_spec mx Mx) as [S1 S2].
      apply pow2_lt_inv. apply (Qcle_lt_trans _ mx); assumption. }
    rewrite (i8_small (K + I)) by lia. rewrite (i8_small (K + I + F)) by lia.
    rewrite (i8_small (K + I + F + fadd)) by lia.
    rewrite (init_elem_nz (mkCfg K _ _)) by (cbn [FixedPoint.bits]; lia). unfold fval. cbn [kn FixedPoint.bits ints].
    destruct (Z.eqb_spec (flog2 mx + 1 + r) 0) as [C|_]; [lia|].
    assert (A : 0 < abw_at l e).
    { unfold abw_at. fold q. fold g. rewrite HR, E1, E2. cbn [fin].
      rewrite (act_bw_relu _ r mn mx Hr) by (try assumption; lia).
      unfold act_bw_exact_elem. unfold bits_at in EP. rewrite E1, E2 in EP. cbn [fin] in EP. rewrite EP. lia. }
    rewrite (Hz A).
    pose proof (rounding_agrees l e z r Hr) as RA. cbv zeta in RA. fold q in RA. fold g in RA. fold y in RA.
    assert (Gy : on_grid r y) by (destruct RA as [[_ RA]|[_ RA]]; apply RA).
    assert (GR : on_grid r (relu y)) by (apply grid_relu, Gy).
    destruct HS as [->| ->]; cbn in Hsat; injection Hsat as <-.
    + destruct (HW eq_refl) as [L U].
      destruct RA as [[RM RA]|[RM RA]]; rewrite RM; destruct FA as [[FM ->]|[FM ->]].
      * rewrite Z.add_0_r. apply relu_wrap_trn; try assumption; lia.
      * exfalso. rewrite RM in FM. assert (TRN qhalf = RND qhalf) as C by (rewrite FM; reflexivity). vm_compute in C. discriminate.
      * exfalso. rewrite RM in FM. assert (TRN qhalf = RND qhalf) as C by (rewrite FM; reflexivity). vm_compute in C. discriminate.
      * apply relu_wrap_rnd; try assumption; lia.
    + destruct RA as [[RM RA]|[RM RA]]; rewrite RM; destruct FA as [[FM ->]|[FM ->]].
      * rewrite Z.add_0_r, (relu_sat_trn K I F (flog2 mx + 1) r _ y) by (try assumption; lia). apply min_over; [lia|exact GR|apply relu_ge0].
      * exfalso. rewrite RM in FM. assert (TRN qhalf = RND qhalf) as C by (rewrite FM; reflexivity). vm_compute in C. discriminate.
      * exfalso. rewrite RM in FM. assert (TRN qhalf = RND qhalf) as C by (rewrite FM; reflexivity). vm_compute in C. discriminate.
      * rewrite (relu_sat_rnd K I F (flog2 mx + 1) r _ y) by (try assumption; lia). apply min_over; [lia|exact GR|apply relu_ge0].
Qed.
