(** One element of a layer output against one element of its proxy. *)
From Coq Require Import ZArith Qcanon List Bool String Lia.
From Verif Require Import Base.Num Base.NumFacts Base.Tensor Model.FixedPoint Model.Quantizer Model.Layers
  Spec.Fixed Spec.Quant Proofs.FixedPointP Proofs.FixedPointLayerP Proofs.QuantizerP Proofs.BitsP Proofs.SampleP.
Import ListNotations.
Local Open Scope string_scope.
Local Open Scope Z_scope.

Lemma qz0_mul x : (qz 0 * x)%Qc = qz 0.
Proof. change (qz 0) with (Q2Qc 0). ring. Qed.
Lemma qz1_mul x : (qz 1 * x)%Qc = x.
Proof. change (qz 1) with (Q2Qc 1). ring. Qed.

Lemma prebias r z y : round_on_grid r z y -> floor_on_grid r (z + pow2 (- r - 1))%Qc y.
Proof.
  intros [G [A B]]. split; [exact G|].
  assert (E : pow2 (- r) = (pow2 (- r - 1) + pow2 (- r - 1))%Qc).
  { replace (- r) with (- r - 1 + 1) at 1 by lia. rewrite pow2_succ. q_prep; qlra. }
  split; [qlra|rewrite E; qlra].
Qed.

Lemma floor_TRN f z y m : floor_on_grid f z y -> y = (qz m * pow2 (- f))%Qc -> TRN (z * pow2 f)%Qc = qz m.
Proof.
  intros [_ [A B]] ->. unfold TRN. f_equal. apply qfloor_unique.
  - rewrite <- (mul_pow2_id (qz m) (- f) f) by lia. apply qmul_le_r; [apply Qclt_le_weak, pow2_pos|exact A].
  - assert (E : (qz m + qz 1)%Qc = ((qz m * pow2 (- f) + pow2 (- f)) * pow2 f)%Qc).
    { rewrite Qcmult_plus_distr_l, (mul_pow2_id (qz m)) by lia. rewrite <- pow2_add.
      replace (- f + f) with 0 by lia. reflexivity. }
    rewrite E. apply qmul_lt_r; [apply pow2_pos|exact B].
Qed.

Lemma round_RND f z y m : round_on_grid f z y -> y = (qz m * pow2 (- f))%Qc -> RND (z * pow2 f)%Qc = qz m.
Proof.
  intros H E. apply prebias in H. rewrite <- (floor_TRN f _ y m H E). unfold RND, TRN. do 2 f_equal.
  rewrite Qcmult_plus_distr_l. f_equal. rewrite <- pow2_add. replace (- f - 1 + f) with (-1) by lia. reflexivity.
Qed.

Lemma sat_names S sat : S = "WRAP" \/ S = "SAT" -> SAT_MAP S = Some sat -> S <> "SAT_SYM".
Proof. intros [->| ->] _; discriminate. Qed.

(** The value HGQ produces fits the configured format: the proxy produces it too. *)
Lemma gfixed_hit rnd sat S k i f z y :
  S = "WRAP" \/ S = "SAT" -> SAT_MAP S = Some sat -> k = 0 \/ k = 1 -> 0 <= i + f -> k + i + f <> 0 ->
  (rnd = TRN /\ floor_on_grid f z y) \/ (rnd = RND /\ round_on_grid f z y) -> fits k i f y ->
  gfixed_elem rnd sat k (k + i + f) (k + i) z = y.
Proof.
  intros HS Hsat Hk H1 H2 HR Hf. rewrite gfixed_elem_nz by lia.
  assert (HF : representable k (k + i + f) (k + i) y).
  { apply representable_fits; [assumption|lia|]. replace (k + i - k) with i by lia. replace (k + i + f - (k + i)) with f by lia. exact Hf. }
  destruct HF as [m [Hm E]].
  replace (k + i + f - (k + i)) with f by lia. replace (k + i - (k + i + f)) with (- f) in * by lia.
  assert (ER : rnd (z * pow2 f)%Qc = qz m).
  { destruct HR as [[-> H]|[-> H]]; [eapply floor_TRN|eapply round_RND]; eassumption. }
  rewrite ER, (sat_id S sat k (k + i + f) m Hsat Hk ltac:(lia) Hm); [auto|].
  intros W. destruct HS as [H|H]; rewrite H in W; discriminate.
Qed.

(** ** The ReLU chain *)

Lemma relu_nonneg x : (qz 0 <= x)%Qc -> relu x = x.
Proof. intros H. unfold relu. destruct (qmax_spec x (qz 0)) as [[? E]|[? E]]; rewrite E; [apply Qcle_antisym; qlra|reflexivity]. Qed.
Lemma relu_nonpos x : (x <= qz 0)%Qc -> relu x = qz 0.
Proof. intros H. unfold relu. destruct (qmax_spec x (qz 0)) as [[? E]|[? E]]; rewrite E; [reflexivity|apply Qcle_antisym; qlra]. Qed.
Lemma relu_ge0 x : (qz 0 <= relu x)%Qc.
Proof. unfold relu. destruct (qmax_spec x (qz 0)) as [[? E]|[? E]]; rewrite E; qlra. Qed.

Lemma gfixed_zero rnd sat S k i f : S = "WRAP" \/ S = "SAT" -> SAT_MAP S = Some sat -> k = 0 \/ k = 1 -> 0 <= i + f ->
  rnd = TRN \/ rnd = RND -> gfixed_elem rnd sat k (k + i + f) (k + i) (qz 0) = qz 0.
Proof.
  intros HS Hsat Hk H1 HR. destruct (Z.eq_dec (k + i + f) 0) as [E|E]; [rewrite E; apply gfixed_elem_z|].
  apply (gfixed_hit rnd sat S k i f); try assumption.
  - assert (P := pow2_pos (- f)). assert (P' := pow2_pos (- f - 1)).
    destruct HR as [->| ->]; [left|right]; (split; [reflexivity|split; [apply grid_0|]]); split; qlra.
  - split; [apply grid_0|]. assert (P := pow2_pos i). split; [|exact P].
    destruct Hk as [->| ->]; qlra.
Qed.

(** Truncation to a finer grid. *)
Lemma finer_floor F z : exists w, floor_on_grid F z w.
Proof. eexists. apply floor_scaled. Qed.

Lemma floor_ge F z w y : floor_on_grid F z w -> on_grid F y -> (y <= z)%Qc -> (y <= w)%Qc.
Proof.
  intros [G [A B]] Hy L. destruct (Qclt_le_dec w y) as [C|C]; [|exact C]. exfalso.
  pose proof (grid_lt_le F w y G Hy C). qlra.
Qed.

Lemma relu_chain_trn sat S K I F i r mx z y :
  S = "WRAP" \/ S = "SAT" -> SAT_MAP S = Some sat -> K = 0 \/ K = 1 -> r <= F -> i <= I -> - r < i ->
  0 <= I + F -> floor_on_grid r z y -> fits K I F y -> (y <= mx)%Qc -> (mx < pow2 i)%Qc ->
  gfixed_elem TRN sat 0 (i + r) i (relu (gfixed_elem TRN sat K (K + I + F) (K + I) z)) = relu y.
Proof.
  intros HS Hsat HK HrF HiI Hi HIF Hz Hy Hmx Hm.
  assert (NB : K + I + F <> 0) by lia.
  destruct (finer_floor F z) as [w Hw].
  assert (Gy : on_grid r y) by apply Hz.
  assert (Yw : (y <= w)%Qc).
  { apply (floor_ge F z); [exact Hw|apply (grid_weaken r); assumption|apply Hz]. }
  assert (Wz : (w <= z)%Qc) by apply Hw.
  assert (Zy : (z < y + pow2 (- r))%Qc) by apply Hz.
  assert (Yi : (y + pow2 (- r) <= pow2 i)%Qc).
  { apply grid_lt_le; [exact Gy|apply grid_pow2; lia|qlra]. }
  assert (Ii : (pow2 i <= pow2 I)%Qc) by (apply pow2_le; lia).
  assert (Ew : gfixed_elem TRN sat K (K + I + F) (K + I) z = w).
  { apply (gfixed_hit TRN sat S); try assumption; [left; auto|].
    split; [apply Hw|]. destruct Hy as [_ [L U]]. split; qlra. }
  rewrite Ew. replace (i + r) with (0 + i + r) by lia. replace i with (0 + i) at 2 by lia.
  destruct (Qclt_le_dec y (qz 0)) as [N|N].
  - assert (Yr : (y + pow2 (- r) <= qz 0)%Qc) by (apply grid_lt_le; [exact Gy|apply grid_0|exact N]).
    rewrite (relu_nonpos w) by qlra. rewrite (relu_nonpos y) by qlra.
    apply (gfixed_zero TRN sat S); auto; lia.
  - rewrite (relu_nonneg w) by qlra. rewrite (relu_nonneg y) by assumption.
    apply (gfixed_hit TRN sat S); auto; try lia.
    + left. split; [reflexivity|]. split; [exact Gy|]. split; [exact Yw|qlra].
    + split; [exact Gy|]. split; qlra.
Qed.

Lemma pow2_half r : pow2 (- r) = (pow2 (- r - 1) + pow2 (- r - 1))%Qc.
Proof. replace (- r) with (- r - 1 + 1) at 1 by lia. rewrite pow2_succ. q_prep; qlra. Qed.

Lemma fits_code K I F n : K = 0 \/ K = 1 -> 0 <= I + F ->
  (code K (K + I + F) n <-> (- (qz K * pow2 I) <= qz n * pow2 (- F))%Qc /\ (qz n * pow2 (- F) < pow2 I)%Qc).
Proof.
  intros HK HIF. rewrite code_iff by lia. unfold hi, lo.
  replace (K + I + F - K) with (I + F) by lia.
  assert (E : pow2 I = (qz (2 ^ (I + F)) * pow2 (- F))%Qc).
  { rewrite <- pow2_Z by lia. rewrite <- pow2_add. f_equal. lia. }
  rewrite E. assert (P := pow2_pos (- F)).
  assert (E2 : (- (qz K * (qz (2 ^ (I + F)) * pow2 (- F))))%Qc = (qz (- (K * 2 ^ (I + F))) * pow2 (- F))%Qc).
  { rewrite qz_opp, qz_mul. ring. }
  rewrite E2. split.
  - intros [A B]. split; [apply qmul_le_r; [apply Qclt_le_weak, P|]|apply qmul_lt_r; [exact P|]]; [apply qz_le|apply qz_lt]; lia.
  - intros [A B]. apply qmul_le_r_inv in A; [|exact P]. apply qmul_lt_r_inv in B; [|exact P].
    apply (proj1 (qz_le _ _)) in A. apply (proj1 (qz_lt _ _)) in B. lia.
Qed.

Lemma relu_chain_rnd sat S K I F i r mx z y :
  S = "WRAP" \/ S = "SAT" -> SAT_MAP S = Some sat -> K = 0 \/ K = 1 -> r <= F -> i <= I -> - r < i ->
  0 <= I + F -> round_on_grid r z y -> fits K I F y -> (y <= mx)%Qc -> (mx < pow2 i)%Qc ->
  gfixed_elem RND sat 0 (i + r) i (relu (gfixed_elem TRN sat K (K + I + F + 1) (K + I) z)) = relu y.
Proof.
  intros HS Hsat HK HrF HiI Hi HIF Hz Hy Hmx Hm.
  replace (K + I + F + 1) with (K + I + (F + 1)) by lia.
  assert (NB : K + I + (F + 1) <> 0) by lia.
  destruct (finer_floor (F + 1) z) as [w Hw].
  destruct Hz as [Gy [Z1 Z2]]. assert (P2 := pow2_half r). assert (PH := pow2_pos (- r - 1)). assert (PI := pow2_pos I).
  assert (Gw : on_grid (F + 1) w) by apply Hw.
  assert (GH : on_grid (F + 1) (y - pow2 (- r - 1))%Qc).
  { apply grid_sub; [apply (grid_weaken r); [lia|exact Gy]|apply grid_pow2; lia]. }
  assert (Yw : (y - pow2 (- r - 1) <= w)%Qc) by (apply (floor_ge (F + 1) z); [exact Hw|exact GH|qlra]).
  assert (Wz : (w <= z)%Qc) by apply Hw.
  assert (Yi : (y + pow2 (- r) <= pow2 i)%Qc).
  { apply grid_lt_le; [exact Gy|apply grid_pow2; lia|qlra]. }
  assert (Ii : (pow2 i <= pow2 I)%Qc) by (apply pow2_le; lia).
  destruct Hy as [_ [Ylo Yhi]].
  assert (RW : round_on_grid r w y) by (split; [exact Gy|split; qlra]).
  replace (i + r) with (0 + i + r) by lia. replace i with (0 + i) at 2 by lia.
  destruct (Qclt_le_dec w (- (qz K * pow2 I))%Qc) as [OV|OK].
  - (* the first quantizer overflows below *)
    assert (Y0 : (y <= qz 0)%Qc).
    { assert (YL : (y < - (qz K * pow2 I) + pow2 (- r))%Qc) by qlra.
      assert (GL : on_grid r (- (qz K * pow2 I))%Qc).
      { apply grid_opp. destruct HK as [->| ->].
        - rewrite qz0_mul. apply grid_0.
        - rewrite qz1_mul. apply grid_pow2. lia. }
      destruct (Qclt_le_dec (- (qz K * pow2 I)) y) as [C|C].
      - pose proof (grid_lt_le r _ _ GL Gy C). qlra.
      - destruct HK as [->| ->]; qlra. }
    rewrite (relu_nonpos y) by exact Y0.
    rewrite (gfixed_elem_nz TRN) by lia.
    destruct Gw as [n En].
    replace (K + I + (F + 1) - (K + I)) with (F + 1) by lia.
    rewrite (floor_TRN (F + 1) z w n Hw En).
    replace (K + I - (K + I + (F + 1))) with (- (F + 1)) by lia.
    assert (Hcode : forall c, sat (qz n) K (K + I + (F + 1)) = qz c -> (S = "WRAP" -> c = n + 2 ^ (K + I + (F + 1))) ->
              (S = "SAT" -> c = - (K * 2 ^ (I + (F + 1)))) ->
              gfixed_elem RND sat 0 (0 + i + r) (0 + i) (relu (sat (qz n) K (K + I + (F + 1)) * pow2 (- (F + 1)))) = qz 0).
    { intros c Ec CW CS. rewrite Ec. destruct HS as [HS|HS].
      - rewrite (CW HS). clear CS.
        assert (E1 : (qz (n + 2 ^ (K + I + (F + 1))) * pow2 (- (F + 1)))%Qc = (w + pow2 (K + I))%Qc).
        { rewrite qz_add, Qcmult_plus_distr_l, <- En, <- pow2_Z by lia. f_equal. rewrite <- pow2_add. f_equal. lia. }
        rewrite E1.
        assert (EK : (pow2 (K + I) = pow2 I + qz K * pow2 I)%Qc).
        { destruct HK as [->| ->]; [replace (0 + I) with I by lia; rewrite qz0_mul; change (qz 0) with (Q2Qc 0); ring|].
          replace (1 + I) with (I + 1) by lia. rewrite pow2_succ, qz1_mul. change 2 with (1 + 1). rewrite qz_add.
          change (qz 1) with (Q2Qc 1). ring. }
        rewrite EK.
        assert (WL : (pow2 I - pow2 (- r - 1) <= w + (pow2 I + qz K * pow2 I))%Qc) by qlra.
        assert (WU : (w + (pow2 I + qz K * pow2 I) < pow2 I)%Qc) by qlra.
        assert (IH : (pow2 (- r) <= pow2 I)%Qc) by (apply pow2_le; lia).
        rewrite relu_nonneg by qlra.
        rewrite gfixed_elem_nz by lia.
        replace (0 + i + r - (0 + i)) with r by lia.
        rewrite (round_RND r _ (pow2 I) (2 ^ (I + r))).
        + subst S. cbn in Hsat. injection Hsat as <-. rewrite WRAP_qz by lia. unfold lo.
          replace (2 ^ (I + r) - - (0 * 2 ^ (0 + i + r - 0))) with (2 ^ (I + r)) by lia.
          replace (2 ^ (I + r)) with (2 ^ (I - i) * 2 ^ (0 + i + r)).
          2:{ rewrite <- Z.pow_add_r by lia. f_equal. lia. }
          rewrite Z.mod_mul by (apply Z.pow_nonzero; lia). cbn [Z.add Z.mul Z.opp]. rewrite qz0_mul. reflexivity.
        + split; [apply grid_pow2; lia|]. split; qlra.
        + rewrite <- pow2_Z by lia. rewrite <- pow2_add. f_equal. lia.
      - rewrite (CS HS). rewrite relu_nonpos.
        + apply (gfixed_zero RND sat S); auto; lia.
        + assert (Q : (qz (- (K * 2 ^ (I + (F + 1)))) <= qz 0)%Qc).
          { apply qz_le. assert (0 < 2 ^ (I + (F + 1))) by (apply Z.pow_pos_nonneg; lia). nia. }
          assert (PF := pow2_pos (- (F + 1))). qnra. }
    assert (NOT : ~ code K (K + I + (F + 1)) n).
    { rewrite fits_code by (try assumption; lia). rewrite <- En. intros [A _]. qlra. }
    assert (LOW : - (K * 2 ^ (I + (F + 1))) - 2 ^ (I + F + 1) <= n).
    { assert (A : (- (qz K * pow2 I) - pow2 I <= w)%Qc).
      { assert (IH : (pow2 (- r - 1) <= pow2 I)%Qc) by (apply pow2_le; lia). qlra. }
      rewrite En in A. assert (E : pow2 I = (qz (2 ^ (I + F + 1)) * pow2 (- (F + 1)))%Qc).
      { rewrite <- pow2_Z by lia. rewrite <- pow2_add. f_equal. lia. }
      rewrite E in A.
      assert (E2 : (- (qz K * (qz (2 ^ (I + F + 1)) * pow2 (- (F + 1)))) - qz (2 ^ (I + F + 1)) * pow2 (- (F + 1)))%Qc
                   = (qz (- (K * 2 ^ (I + F + 1)) - 2 ^ (I + F + 1)) * pow2 (- (F + 1)))%Qc).
      { rewrite qz_sub, qz_opp, qz_mul. ring. }
      rewrite E2 in A. apply qmul_le_r_inv in A; [|apply pow2_pos]. apply (proj1 (qz_le _ _)) in A.
      replace (I + (F + 1)) with (I + F + 1) by lia. exact A. }
    assert (NHI : n < - (K * 2 ^ (I + (F + 1)))).
    { rewrite En in OV. assert (E : pow2 I = (qz (2 ^ (I + (F + 1))) * pow2 (- (F + 1)))%Qc).
      { rewrite <- pow2_Z by lia. rewrite <- pow2_add. f_equal. lia. }
      rewrite E in OV.
      assert (E2 : (- (qz K * (qz (2 ^ (I + (F + 1))) * pow2 (- (F + 1)))))%Qc
                   = (qz (- (K * 2 ^ (I + (F + 1)))) * pow2 (- (F + 1)))%Qc) by (rewrite qz_opp, qz_mul; ring).
      rewrite E2 in OV. apply qmul_lt_r_inv in OV; [|apply pow2_pos]. apply (proj1 (qz_lt _ _)) in OV. exact OV. }
    destruct HS as [HS|HS].
    + subst S. cbn in Hsat. injection Hsat as <-.
      apply (Hcode (n + 2 ^ (K + I + (F + 1)))); [|auto|discriminate].
      rewrite WRAP_qz by lia. unfold lo. replace (K + I + (F + 1) - K) with (I + (F + 1)) by lia.
      f_equal. assert (PP : 0 < 2 ^ (I + (F + 1))) by (apply Z.pow_pos_nonneg; lia).
      assert (E : 2 ^ (K + I + (F + 1)) = (1 + K) * 2 ^ (I + (F + 1))).
      { destruct HK as [->| ->]; [replace (0 + I + (F + 1)) with (I + (F + 1)) by lia; lia|].
        replace (1 + I + (F + 1)) with (I + (F + 1) + 1) by lia. rewrite pow_split by lia. lia. }
      replace (I + F + 1) with (I + (F + 1)) in LOW by lia.
      rewrite <- (Z.mod_unique (n - - (K * 2 ^ (I + (F + 1)))) (2 ^ (K + I + (F + 1))) (-1) (n + K * 2 ^ (I + (F + 1)) + 2 ^ (K + I + (F + 1)))).
      * lia.
      * left. rewrite E. destruct HK as [->| ->]; lia.
      * lia.
    + subst S. cbn in Hsat. injection Hsat as <-.
      apply (Hcode (- (K * 2 ^ (I + (F + 1))))); [|discriminate|auto].
      rewrite SAT_qz by lia. unfold hi, lo. replace (K + I + (F + 1) - K) with (I + (F + 1)) by lia.
      f_equal. assert (PP : 0 < 2 ^ (I + (F + 1))) by (apply Z.pow_pos_nonneg; lia).
      destruct HK as [->| ->]; lia.
  - assert (Ew : gfixed_elem TRN sat K (K + I + (F + 1)) (K + I) z = w).
    { apply (gfixed_hit TRN sat S); try assumption; [lia|left; auto|].
      split; [exact Gw|]. split; [exact OK|qlra]. }
    rewrite Ew. destruct (Qclt_le_dec y (qz 0)) as [N|N].
    + assert (Yr : (y + pow2 (- r) <= qz 0)%Qc) by (apply grid_lt_le; [exact Gy|apply grid_0|exact N]).
      rewrite (relu_nonpos w) by qlra. rewrite (relu_nonpos y) by qlra.
      apply (gfixed_zero RND sat S); auto; lia.
    + rewrite (relu_nonneg y) by assumption.
      apply (gfixed_hit RND sat S); auto; try lia.
      * right. split; [reflexivity|]. split; [exact Gy|].
        destruct (Qclt_le_dec w (qz 0)) as [W|W].
        -- rewrite relu_nonpos by qlra.
           assert (y = qz 0) as ->.
           { destruct (Qclt_le_dec (qz 0) y) as [C|C]; [|apply Qcle_antisym; assumption].
             pose proof (grid_lt_le r _ _ (grid_0 r) Gy C). qlra. }
           split; qlra.
        -- rewrite relu_nonneg by exact W. split; qlra.
      * split; [exact Gy|]. split; qlra.
Qed.
