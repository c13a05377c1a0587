(** The quantizer in single precision. *)
From Coq Require Import ZArith Qcanon Bool Lia.
From Verif Require Import Base.Num Base.NumFacts Model.FixedPoint Model.Float32 Spec.Float Proofs.FixedPointP Proofs.Float32P.
Local Open Scope Z_scope.

Lemma pow2_m1 : pow2 (-1) = qhalf.
Proof. apply Qc_is_canon; vm_compute; reflexivity. Qed.

Lemma qabs_lt_iff x b : (qabs x < b)%Qc <-> (- b < x)%Qc /\ (x < b)%Qc.
Proof. split; [intros H|intros [H1 H2]]; destruct (qabs_spec x) as [[? E]|[? E]]; rewrite E in *; qlra. Qed.
Lemma qabs_le_iff x b : (qabs x <= b)%Qc <-> (- b <= x)%Qc /\ (x <= b)%Qc.
Proof. split; [intros H|intros [H1 H2]]; destruct (qabs_spec x) as [[? E]|[? E]]; rewrite E in *; qlra. Qed.

(** Floats at or above 2^23 are integers. *)
Lemma float_int s : float32 s -> (pow2 23 <= qabs s)%Qc -> exists k, s = qz k.
Proof. intros Hs H. destruct (float_unit s 23 Hs H) as [k Ek]. exists k. rewrite Ek. change (23 - 23) with 0. rewrite pow2_0, qz1. ring. Qed.

(** Standard rounding, all floats. *)
Lemma floor_half s : float32 s -> s <> pred_half -> ~ (exists k, s = qz k /\ Z.Odd k /\ 2 ^ 23 < Z.abs k < 2 ^ 24) ->
  qfloor (rn32 (s + qhalf)) = qfloor (s + qhalf).
Proof.
  intros Hs N1 N2. destruct (qltb_spec (qabs s) (pow2 23)) as [B|B]; [apply floor_half_small; assumption|].
  destruct (floor_half_big s Hs B) as [k [-> [E|[E Ev]]]]; rewrite E; [|reflexivity].
  assert (Fk : qfloor (qz k + qhalf) = k) by (apply qfloor_unique; qlra).
  rewrite qfloor_qz, Fk. destruct (Z.ltb_spec (Z.abs k) (2 ^ 24)) as [L|L]; [|reflexivity]. destruct (Z.odd k) eqn:O; [|reflexivity]. cbn [andb]. exfalso. apply N2.
  exists k. split; [reflexivity|]. split; [apply Z.odd_spec; exact O|]. rewrite qabs_qz, (pow2_Z 23) in B by lia. apply (proj1 (qz_le _ _)) in B.
  destruct (Z.eq_dec (Z.abs k) (2 ^ 23)) as [A|A]; [|lia]. exfalso. destruct (Z.abs_eq_or_opp k) as [A'|A']; rewrite A' in A; [rewrite A in O|replace k with (- 2 ^ 23) in O by lia]; discriminate.
Qed.

Lemma floor_half_odd k : Z.Odd k -> 2 ^ 23 < Z.abs k < 2 ^ 24 -> rn32 (qz k + qhalf) = qz (k + 1).
Proof.
  intros O B. assert (Hs : float32 (qz k)) by (apply float_qz; lia).
  destruct (floor_half_big (qz k) Hs) as [k' [Ek H]]. { rewrite qabs_qz, pow2_Z by lia. apply qz_le. lia. }
  apply qz_inj in Ek. subst k'. apply Z.odd_spec in O. destruct H as [E|[_ E]]; [|congruence]. rewrite E, O. destruct (Z.ltb_spec (Z.abs k) (2 ^ 24)); [reflexivity|lia].
Qed.

(** x + ((r/2^n) - x) when both are floats. *)
Lemma finish x n r : float32 (qz r * pow2 (- n))%Qc -> float32 (qz r * pow2 (- n) - x)%Qc ->
  rn32 (x + rn32 (rn32 (qz r / pow2 n) - x)) = (qz r * pow2 (- n))%Qc.
Proof.
  intros H1 H2. rewrite div_pow2, (rn32_id _ H1), (rn32_id _ H2). replace (x + (qz r * pow2 (- n) - x))%Qc with (qz r * pow2 (- n))%Qc by ring. apply rn32_id. exact H1.
Qed.

Lemma delta_scaled x n r : (qz r * pow2 (- n) - x = (qz r - x * pow2 n) * pow2 (- n))%Qc.
Proof. unfold Qcminus. rewrite Qcmult_plus_distr_l. f_equal. rewrite <- (mul_pow2_cancel x n) at 1. ring. Qed.

(** The step is a float when the scaled input is within one half of it. *)
Lemma delta_float x n r : float32 x -> float32 (x * pow2 n)%Qc -> -100 <= n <= 120 ->
  (qz r - qhalf <= x * pow2 n)%Qc -> (x * pow2 n <= qz r + qhalf)%Qc ->
  float32 (qz r * pow2 (- n))%Qc /\ float32 (qz r * pow2 (- n) - x)%Qc \/ (pow2 23 <= qabs (x * pow2 n))%Qc /\ (x * pow2 n)%Qc <> qz r.
Proof.
  intros Hx Hs Hn L U. set (s := (x * pow2 n)%Qc) in *.
  assert (Ex : x = (s * pow2 (- n))%Qc) by (unfold s; symmetry; apply mul_pow2_cancel).
  destruct (qltb_spec (qabs s) (pow2 23)) as [B|B].
  2:{ destruct (qeqb_spec s (qz r)) as [E|E]; [left|right; split; assumption]. rewrite <- E, <- Ex. split; [exact Hx|]. replace (x - x)%Qc with (qz 0) by (rewrite qz_0; ring). exact float_0. }
  left. rewrite (pow2_Z 23) in B by lia. apply qabs_lt_iff in B. destruct B as [B1 B2].
  assert (R : - 2 ^ 23 - 1 < r < 2 ^ 23 + 1) by (split; apply qz_lt; rewrite ?qz_sub, ?qz_opp, ?qz_add; qlra).
  split; [apply float_grid; lia|].
  destruct (Z.eq_dec r 0) as [->|R0].
  - replace (qz 0 * pow2 (- n) - x)%Qc with (- x)%Qc by (rewrite qz_0; ring). apply float_opp. exact Hx.
  - destruct (float_unit s (-1) Hs) as [k Ek].
    { rewrite pow2_m1. destruct (Z.lt_trichotomy r 0) as [R1|[R1|R1]]; [|contradiction|].
      - assert (qz r + qz 1 <= qz 0)%Qc by (rewrite <- qz_add; apply qz_le; lia). destruct (qabs_spec s) as [[? ->]|[? ->]]; qlra.
      - assert (qz 1 <= qz r)%Qc by (apply qz_le; lia). destruct (qabs_spec s) as [[? ->]|[? ->]]; qlra. }
    change (-1 - 23) with (-24) in Ek. rewrite delta_scaled. fold s.
    assert (Er : (qz r - s = qz (r * 2 ^ 24 - k) * pow2 (-24))%Qc).
    { rewrite Ek, (int_grid r (-24)) by lia. change (- -24) with 24. rewrite qz_sub. ring. }
    rewrite Er, <- Qcmult_assoc, <- pow2_add. apply float_grid; [|lia].
    assert (Hd : (qabs (qz (r * 2 ^ 24 - k) * pow2 (-24)) <= qhalf)%Qc) by (rewrite <- Er; apply qabs_le_iff; split; qlra).
    rewrite qabs_scale, qabs_qz in Hd. replace qhalf with (qz (2 ^ 23) * pow2 (-24))%Qc in Hd by (apply Qc_is_canon; vm_compute; reflexivity).
    apply qmul_le_r_inv in Hd; [|apply pow2_pos]. apply (proj1 (qz_le _ _)) in Hd. lia.
Qed.

(** Tiny scaled values quantize to zero. *)
Lemma forward_tiny n x : float32 x -> (qabs (x * pow2 n) < pow2 (-2))%Qc -> forward32 false n x = qz 0.
Proof.
  intros Hx T. unfold forward32. cbv zeta. unfold q_round32. apply qabs_lt_iff in T. destruct T as [T1 T2].
  assert (F2 : float32 (pow2 (-2))) by (replace (pow2 (-2)) with (qz 1 * pow2 (-2))%Qc by (rewrite qz1; ring); apply float_grid; lia).
  assert (S1 : (- pow2 (-2) <= rn32 (x * pow2 n))%Qc) by (apply rn32_ge; [apply float_opp; exact F2|qlra]).
  assert (S2 : (rn32 (x * pow2 n) <= pow2 (-2))%Qc) by (apply rn32_le; [exact F2|qlra]).
  assert (Eq : (pow2 (-2) < qhalf)%Qc) by (vm_compute; reflexivity).
  assert (F3 : float32 (pow2 (-2) + qhalf)%Qc) by (replace (pow2 (-2) + qhalf)%Qc with (qz 3 * pow2 (-2))%Qc by (apply Qc_is_canon; vm_compute; reflexivity); apply float_grid; lia).
  assert (E : qfloor (rn32 (rn32 (x * pow2 n) + qhalf)) = 0).
  { apply qfloor_unique.
    - apply rn32_ge; [exact float_0|qlra].
    - apply Qcle_lt_trans with (pow2 (-2) + qhalf)%Qc; [apply rn32_le; [exact F3|qlra]|qlra]. }
  rewrite E, finish; [rewrite qz_0; ring| |].
  - rewrite qz_0, Qcmult_0_l. rewrite <- qz_0. exact float_0.
  - replace (qz 0 * pow2 (- n) - x)%Qc with (- x)%Qc by (rewrite qz_0; ring). apply float_opp. exact Hx.
Qed.

Lemma forward_round n x : float32 x -> -100 <= n <= 120 -> (qabs (x * pow2 n) < pow2 100)%Qc ->
  (x * pow2 n)%Qc <> pred_half -> ~ (exists k, (x * pow2 n)%Qc = qz k /\ Z.Odd k /\ 2 ^ 23 < Z.abs k < 2 ^ 24) ->
  forward32 false n x = (qz (qfloor (x * pow2 n + qhalf)) * pow2 (- n))%Qc.
Proof.
  intros Hx Hn Hb N1 N2. destruct (qltb_spec (qabs (x * pow2 n)) (pow2 (-2))) as [T|T].
  { rewrite forward_tiny by assumption. assert (Eq : (pow2 (-2) < qhalf)%Qc) by (vm_compute; reflexivity). apply qabs_lt_iff in T. destruct T as [T1 T2].
    assert (F : qfloor (x * pow2 n + qhalf) = 0) by (apply qfloor_unique; qlra). rewrite F, qz_0. ring. }
  pose proof (float_scale x n Hx Hb T) as Hs. unfold forward32. cbv zeta. unfold q_round32. rewrite (rn32_id _ Hs), floor_half by assumption.
  set (r := qfloor (x * pow2 n + qhalf)). pose proof (qfloor_le (x * pow2 n + qhalf)) as L. pose proof (qfloor_lt (x * pow2 n + qhalf)) as U. fold r in L, U.
  destruct (delta_float x n r) as [[D1 D2]|[D1 D2]]; try assumption; try qlra.
  - apply finish; assumption.
  - exfalso. destruct (float_int _ Hs D1) as [k Ek]. apply D2. rewrite Ek in *. f_equal. symmetry. apply qfloor_unique; qlra.
Qed.

Lemma forward_odd n x k : float32 x -> -100 <= n <= 120 -> (x * pow2 n)%Qc = qz k -> Z.Odd k -> 2 ^ 23 < Z.abs k < 2 ^ 24 ->
  forward32 false n x = (qz (k + 1) * pow2 (- n))%Qc.
Proof.
  intros Hx Hn E O B. unfold forward32. cbv zeta. unfold q_round32. rewrite E. rewrite (rn32_id (qz k)) by (apply float_qz; lia). rewrite floor_half_odd, qfloor_qz by assumption.
  apply finish; [apply float_grid; lia|]. rewrite delta_scaled, E.
  replace (qz (k + 1) - qz k)%Qc with (qz 1) by (rewrite qz_add; ring). apply float_grid; lia.
Qed.

Lemma forward_pred n x : float32 x -> -100 <= n <= 100 -> (x * pow2 n)%Qc = pred_half -> forward32 false n x = pow2 (- n).
Proof.
  intros Hx Hn E. unfold forward32. cbv zeta. unfold q_round32. rewrite E.
  assert (E1 : rn32 pred_half = pred_half) by (apply Qc_is_canon; vm_compute; reflexivity). rewrite E1.
  assert (E2 : qfloor (rn32 (pred_half + qhalf)) = 1) by (vm_compute; reflexivity). rewrite E2, div_pow2.
  assert (F : float32 (qz 1 * pow2 (- n))%Qc) by (apply float_grid; lia). rewrite (rn32_id _ F), delta_scaled, E.
  assert (Big : forall y, (pow2 (-2) <= qabs y)%Qc -> rn32 (y * pow2 (- n))%Qc = (rn32 y * pow2 (- n))%Qc).
  { intros y Hy. assert (pow2 (-126) < pow2 (-2))%Qc by (apply pow2_lt; lia). apply rn32_scale; [qlra|]. rewrite qabs_scale.
    apply Qcle_trans with (pow2 (-2) * pow2 (- n))%Qc; [rewrite <- pow2_add; apply pow2_le; lia|]. apply qmul_le_r; [pose proof (pow2_pos (- n)); qlra|exact Hy]. }
  rewrite Big by (vm_compute; intros; discriminate).
  assert (E3 : rn32 (qz 1 - pred_half) = qhalf) by (apply Qc_is_canon; vm_compute; reflexivity). rewrite E3.
  rewrite <- (mul_pow2_cancel x n) at 1. rewrite E, <- Qcmult_plus_distr_l, Big by (vm_compute; intros; discriminate).
  assert (E4 : rn32 (pred_half + qhalf) = qz 1) by (apply Qc_is_canon; vm_compute; reflexivity). rewrite E4, qz1. ring.
Qed.

(** ** Floor *)

Lemma rn32_err x j : -125 <= j -> (qabs x < pow2 j)%Qc -> (qabs (x - rn32 x) <= pow2 (j - 25))%Qc.
Proof.
  intros Hj B. unfold rn32. destruct (qeqb_spec x (qz 0)) as [->|N].
  { replace (qz 0 - qz 0)%Qc with (qz 0) by (rewrite qz_0; ring). rewrite qabs_qz. pose proof (pow2_pos (j - 25)). cbn [Z.abs]. qlra. }
  cbv zeta. set (e := Z.max (flog2 (qabs x) - 23) (-149)). pose proof (proj2 (flog2_lt_iff (qabs x) j (qabs_pos x N)) B) as F.
  set (t := (x * pow2 (- e))%Qc). assert (Ex : x = (t * pow2 e)%Qc) by (unfold t; symmetry; apply mul_pow2_cancel').
  rewrite Ex at 1. rewrite abs_scale. destruct (qround_even_near t) as [R1 R2].
  apply Qcle_trans with (qhalf * pow2 e)%Qc.
  - apply qmul_le_r; [pose proof (pow2_pos e); qlra|]. apply qabs_le_iff. split; qlra.
  - rewrite <- pow2_m1, <- pow2_add. apply pow2_le. lia.
Qed.

(** Within 2^-25 of -1 everything rounds to -1. *)
Lemma rn32_minus_one y : (qabs (y + qz 1) <= pow2 (-25))%Qc -> rn32 y = qz (-1).
Proof.
  intros H. apply qabs_le_iff in H. destruct H as [H1 H2].
  assert (Sm : (pow2 (-25) < qhalf)%Qc) by (vm_compute; reflexivity). pose proof (pow2_pos (-25)) as P25.
  unfold rn32. destruct (qeqb_spec y (qz 0)) as [->|N]; [qlra|]. cbv zeta.
  assert (Ay : qabs y = (- y)%Qc) by (destruct (qabs_spec y) as [[? ->]|[? ->]]; qlra). rewrite Ay.
  destruct (qleb_spec y (qz (-1))) as [C|C].
  - assert (F : flog2 (- y) = 0) by (apply flog2_unique; [rewrite pow2_0; qlra|change (0 + 1) with 1; replace (pow2 1) with (qz 2) by (apply Qc_is_canon; vm_compute; reflexivity); qlra]).
    rewrite F. change (Z.max (0 - 23) (-149)) with (-23). change (- -23) with 23.
    assert (R : qround_even (y * pow2 23) = - 2 ^ 23).
    { destruct (qround_even_near (y * pow2 23)) as [R1 R2]. set (r := qround_even (y * pow2 23)) in *.
      assert (T1 : ((qz (-1) - pow2 (-25)) * pow2 23 <= y * pow2 23)%Qc) by (apply qmul_le_r; [pose proof (pow2_pos 23); qlra|qlra]).
      assert (T2 : (y * pow2 23 <= qz (-1) * pow2 23)%Qc) by (apply qmul_le_r; [pose proof (pow2_pos 23); qlra|exact C]).
      replace ((qz (-1) - pow2 (-25)) * pow2 23)%Qc with (qz (- 2 ^ 23) - pow2 (-2))%Qc in T1 by (apply Qc_is_canon; vm_compute; reflexivity).
      replace (qz (-1) * pow2 23)%Qc with (qz (- 2 ^ 23)) in T2 by (apply Qc_is_canon; vm_compute; reflexivity).
      assert (pow2 (-2) < qhalf)%Qc by (vm_compute; reflexivity).
      assert (r < - 2 ^ 23 + 1) by (apply qz_lt; rewrite qz_add; qlra). assert (- 2 ^ 23 - 1 < r) by (apply qz_lt; rewrite qz_sub; qlra). lia. }
    rewrite R. apply Qc_is_canon; vm_compute; reflexivity.
  - assert (F : flog2 (- y) = -1) by (apply flog2_unique; [rewrite pow2_m1; qlra|change (-1 + 1) with 0; rewrite pow2_0; qlra]).
    rewrite F. change (Z.max (-1 - 23) (-149)) with (-24). change (- -24) with 24.
    assert (R : qround_even (y * pow2 24) = - 2 ^ 24).
    { destruct (qround_even_near (y * pow2 24)) as [R1 R2]. pose proof (qround_even_tie (y * pow2 24)) as T. set (r := qround_even (y * pow2 24)) in *.
      assert (T1 : (qz (-1) * pow2 24 < y * pow2 24)%Qc) by (apply qmul_lt_r; [apply pow2_pos|exact C]).
      assert (T2 : (y * pow2 24 <= (qz (-1) + pow2 (-25)) * pow2 24)%Qc) by (apply qmul_le_r; [pose proof (pow2_pos 24); qlra|qlra]).
      replace ((qz (-1) + pow2 (-25)) * pow2 24)%Qc with (qz (- 2 ^ 24) + qhalf)%Qc in T2 by (apply Qc_is_canon; vm_compute; reflexivity).
      replace (qz (-1) * pow2 24)%Qc with (qz (- 2 ^ 24)) in T1 by (apply Qc_is_canon; vm_compute; reflexivity).
      assert (r <= - 2 ^ 24 + 1) by (apply qz_le; rewrite qz_add; qlra). assert (- 2 ^ 24 - 1 < r) by (apply qz_lt; rewrite qz_sub; qlra).
      destruct (Z.eq_dec r (- 2 ^ 24)) as [|Nr]; [assumption|exfalso]. assert (Er : r = - 2 ^ 24 + 1) by lia. rewrite Er, qz_add in R1.
      assert (Ey : (y * pow2 24 = qz (- 2 ^ 24) + qhalf)%Qc) by qlra.
      assert (Fl : qfloor (y * pow2 24) = - 2 ^ 24) by (apply qfloor_unique; qlra). rewrite Fl in T. specialize (T Ey). rewrite Er in T. discriminate. }
    rewrite R. apply Qc_is_canon; vm_compute; reflexivity.
Qed.

Lemma forward_floor n x : float32 x -> float32 (x * pow2 n)%Qc -> -100 <= n <= 100 ->
  forward32 true n x = (qz (qfloor (x * pow2 n)) * pow2 (- n))%Qc.
Proof.
  intros Hx Hs Hn. unfold forward32. cbv zeta. unfold q_round32. rewrite (rn32_id _ Hs). set (s := (x * pow2 n)%Qc) in *.
  assert (Ex : x = (s * pow2 (- n))%Qc) by (unfold s; symmetry; apply mul_pow2_cancel).
  set (r := qfloor s). pose proof (qfloor_le s) as L. pose proof (qfloor_lt s) as U. fold r in L, U.
  destruct (qltb_spec (qabs s) (pow2 23)) as [B|B].
  2:{ destruct (float_int s Hs B) as [k Ek]. assert (Er : r = k) by (unfold r; rewrite Ek; apply qfloor_qz). rewrite Er, <- Ek, <- Ex.
      unfold Qcdiv in *. rewrite Ek in Ex. rewrite Ek. fold (qz k / pow2 n)%Qc. rewrite div_pow2, <- Ex. rewrite (rn32_id x Hx). replace (x - x)%Qc with (qz 0) by (rewrite qz_0; ring). rewrite (rn32_id _ float_0).
      replace (x + qz 0)%Qc with x by (rewrite qz_0; ring). apply rn32_id. exact Hx. }
  rewrite (pow2_Z 23) in B by lia. apply qabs_lt_iff in B. destruct B as [B1 B2].
  assert (R : - 2 ^ 23 - 1 < r < 2 ^ 23 + 1) by (split; apply qz_lt; rewrite ?qz_sub, ?qz_opp, ?qz_add; qlra).
  assert (Fq : float32 (qz r * pow2 (- n))%Qc) by (apply float_grid; lia).
  assert (Grid : (exists k, s = (qz k * pow2 (-24))%Qc) -> rn32 (x + rn32 (rn32 (qz r / pow2 n) - x)) = (qz r * pow2 (- n))%Qc).
  { intros [k Ek]. apply finish; [exact Fq|]. rewrite delta_scaled. fold s.
    assert (Er : (qz r - s = qz (r * 2 ^ 24 - k) * pow2 (-24))%Qc).
    { rewrite Ek, (int_grid r (-24)) by lia. change (- -24) with 24. rewrite qz_sub. ring. }
    rewrite Er, <- Qcmult_assoc, <- pow2_add. apply float_grid; [|lia].
    assert (Hd : (qabs (qz (r * 2 ^ 24 - k) * pow2 (-24)) <= qz 1)%Qc) by (rewrite <- Er; apply qabs_le_iff; split; qlra).
    rewrite qabs_scale, qabs_qz in Hd. replace (qz 1) with (qz (2 ^ 24) * pow2 (-24))%Qc in Hd by (apply Qc_is_canon; vm_compute; reflexivity).
    apply qmul_le_r_inv in Hd; [|apply pow2_pos]. apply (proj1 (qz_le _ _)) in Hd. lia. }
  destruct (qleb_spec qhalf (qabs s)) as [H|H]; [apply Grid; apply (float_unit s (-1)); [exact Hs|rewrite pow2_m1; exact H]|].
  apply qabs_lt_iff in H. destruct H as [H1 H2]. destruct (qleb_spec (qz 0) s) as [P|P].
  - assert (R0 : r = 0) by (apply qfloor_unique; qlra). rewrite R0 in *. apply finish; [exact Fq|].
    replace (qz 0 * pow2 (- n) - x)%Qc with (- x)%Qc by (rewrite qz_0; ring). apply float_opp. exact Hx.
  - assert (R1 : r = -1) by (apply qfloor_unique; qlra). rewrite R1 in *. rewrite div_pow2, (rn32_id _ Fq), delta_scaled. fold s.
    assert (Big : forall y, (qhalf <= qabs y)%Qc -> rn32 (y * pow2 (- n))%Qc = (rn32 y * pow2 (- n))%Qc).
    { intros y Hy. assert (pow2 (-126) < pow2 (-1))%Qc by (apply pow2_lt; lia). rewrite pow2_m1 in H. apply rn32_scale; [qlra|]. rewrite qabs_scale.
      apply Qcle_trans with (qhalf * pow2 (- n))%Qc; [rewrite <- pow2_m1, <- pow2_add; apply pow2_le; lia|]. apply qmul_le_r; [pose proof (pow2_pos (- n)); qlra|exact Hy]. }
    assert (Ad : qabs (qz (-1) - s) = (s + qz 1)%Qc) by (destruct (qabs_spec (qz (-1) - s)) as [[? ->]|[? ->]]; qlra).
    rewrite Big by (rewrite Ad; qlra).
    assert (Err : (qabs (qz (-1) - s - rn32 (qz (-1) - s)) <= pow2 (0 - 25))%Qc) by (apply rn32_err; [lia|rewrite Ad, pow2_0; qlra]).
    change (0 - 25) with (-25) in Err. set (d := rn32 (qz (-1) - s)) in *.
    rewrite Ex at 1. rewrite <- Qcmult_plus_distr_l.
    assert (Cl : (qabs (s + d + qz 1) <= pow2 (-25))%Qc) by (apply qabs_le_iff in Err; apply qabs_le_iff; split; qlra).
    rewrite Big, rn32_minus_one; [reflexivity|exact Cl|]. assert (pow2 (-25) < qhalf)%Qc by (vm_compute; reflexivity).
    apply qabs_le_iff in Cl. destruct (qabs_spec (s + d)) as [[? ->]|[? ->]]; qlra.
Qed.

(** ** The result is always a quantization step, and the proxy computes the same one *)

Lemma tiny_round n x : (qabs (x * pow2 n) < pow2 (-2))%Qc -> q_round32 false (rn32 (x * pow2 n)) = 0.
Proof.
  intros T. unfold q_round32. apply qabs_lt_iff in T. destruct T as [T1 T2].
  assert (F2 : float32 (pow2 (-2))) by (replace (pow2 (-2)) with (qz 1 * pow2 (-2))%Qc by (rewrite qz1; ring); apply float_grid; lia).
  assert (S1 : (- pow2 (-2) <= rn32 (x * pow2 n))%Qc) by (apply rn32_ge; [apply float_opp; exact F2|qlra]).
  assert (S2 : (rn32 (x * pow2 n) <= pow2 (-2))%Qc) by (apply rn32_le; [exact F2|qlra]).
  assert (Eq : (pow2 (-2) < qhalf)%Qc) by (vm_compute; reflexivity).
  assert (F3 : float32 (pow2 (-2) + qhalf)%Qc) by (replace (pow2 (-2) + qhalf)%Qc with (qz 3 * pow2 (-2))%Qc by (apply Qc_is_canon; vm_compute; reflexivity); apply float_grid; lia).
  apply qfloor_unique.
  - apply rn32_ge; [exact float_0|qlra].
  - apply Qcle_lt_trans with (pow2 (-2) + qhalf)%Qc; [apply rn32_le; [exact F3|qlra]|qlra].
Qed.

Lemma forward_step n x : float32 x -> -100 <= n <= 100 -> (qabs (x * pow2 n) < pow2 100)%Qc ->
  forward32 false n x = (qz (q_round32 false (rn32 (x * pow2 n))) * pow2 (- n))%Qc.
Proof.
  intros Hx Hn Hb. destruct (qltb_spec (qabs (x * pow2 n)) (pow2 (-2))) as [T|T].
  { rewrite forward_tiny, tiny_round by assumption. rewrite qz_0. ring. }
  pose proof (float_scale x n Hx Hb T) as Hs. rewrite (rn32_id _ Hs).
  destruct (qeqb_spec (x * pow2 n) pred_half) as [P|P].
  { rewrite (forward_pred n x) by assumption. rewrite P. replace (q_round32 false pred_half) with 1 by (vm_compute; reflexivity). rewrite qz1. ring. }
  destruct (qltb_spec (qabs (x * pow2 n)) (pow2 23)) as [B|B].
  - assert (Q : q_round32 false (x * pow2 n) = qfloor (x * pow2 n + qhalf)) by (apply floor_half_small; assumption).
    rewrite forward_round; [rewrite Q; reflexivity|assumption|lia|assumption|exact P|].
    intros [k [Ek [_ Hk]]]. rewrite Ek, qabs_qz, (pow2_Z 23) in B by lia. apply (proj1 (qz_lt _ _)) in B. lia.
  - destruct (floor_half_big _ Hs B) as [k [Ek H]]. rewrite Ek in *.
    assert (Fk : qfloor (qz k + qhalf) = k) by (apply qfloor_unique; qlra).
    destruct ((Z.abs k <? 2 ^ 24) && Z.odd k) eqn:O.
    + apply andb_prop in O. destruct O as [O1 O2]. destruct H as [H|[_ H]]; [|congruence]. unfold q_round32. rewrite H, qfloor_qz.
      assert (B' : 2 ^ 23 <= Z.abs k) by (rewrite qabs_qz, (pow2_Z 23) in B by lia; apply (proj1 (qz_le _ _)) in B; exact B).
      apply Z.ltb_lt in O1. apply forward_odd; [assumption|lia|exact Ek|apply Z.odd_spec; exact O2|].
      destruct (Z.eq_dec (Z.abs k) (2 ^ 23)) as [A|A]; [|lia]. exfalso. destruct (Z.abs_eq_or_opp k) as [A'|A']; rewrite A' in A; [rewrite A in O2|replace k with (- 2 ^ 23) in O2 by lia]; discriminate.
    + rewrite forward_round; [|assumption|lia|rewrite Ek; assumption|rewrite Ek; exact P|].
      * unfold q_round32. rewrite Ek, Fk. destruct H as [H|[H _]]; rewrite H; [rewrite qfloor_qz|rewrite Fk]; reflexivity.
      * rewrite Ek. intros [k' [E' [O' B']]]. apply qz_inj in E'. subst k'. apply Z.odd_spec in O'. rewrite O', andb_true_r in O. apply Z.ltb_ge in O. lia.
Qed.

(** The bounds of a format of at most 24 bits are floats. *)
Lemma bounds32 k b : 0 <= k <= 1 -> k <= b <= 24 ->
  rn32 (pow2 (b - k) - qz 1) = qz (2 ^ (b - k) - 1) /\ rn32 (- rn32 (qz (2 ^ (b - k) - 1) + qz 1) * qz k) = qz (- 2 ^ (b - k) * k).
Proof.
  intros Hk Hb. assert (0 < 2 ^ (b - k) <= 2 ^ 24) by (split; [apply Z.pow_pos_nonneg; lia|apply Z.pow_le_mono_r; lia]).
  split.
  - rewrite pow2_Z, <- qz_sub by lia. apply rn32_id, float_qz. lia.
  - rewrite <- qz_add, (rn32_id (qz _)) by (apply float_qz; lia). rewrite <- qz_opp, <- qz_mul. replace (- (2 ^ (b - k) - 1 + 1) * k) with (- 2 ^ (b - k) * k) by ring. apply rn32_id, float_qz. nia.
Qed.

Lemma SAT32_exact x k b : 0 <= k <= 1 -> k <= b <= 24 -> SAT32 x k b = SAT x k b.
Proof.
  intros Hk Hb. destruct (bounds32 k b Hk Hb) as [E1 E2]. unfold SAT32, SAT. cbv zeta. rewrite E1, E2. rewrite pow2_Z, <- qz_sub, <- qz_add, <- qz_opp, <- qz_mul by lia.
  do 2 f_equal. ring.
Qed.

Lemma WRAP32_exact r k b : 0 <= k <= 1 -> k <= b <= 23 -> - 2 ^ 23 <= r <= 2 ^ 23 -> WRAP32 (qz r) k b = WRAP (qz r) k b.
Proof.
  intros Hk Hb Hr. destruct (bounds32 k b Hk) as [E1 E2]; [lia|]. rewrite WRAP_qz by lia. unfold WRAP32. cbv zeta. rewrite E1, E2.
  assert (El : lo k b = - 2 ^ (b - k) * k) by (unfold lo; ring). rewrite El. set (p := 2 ^ (b - k)).
  assert (Pp : 0 < p /\ (1 + k) * p = 2 ^ b).
  { split; [apply Z.pow_pos_nonneg; lia|]. unfold p. assert (K : k = 0 \/ k = 1) by lia. destruct K as [-> | ->].
    - rewrite Z.sub_0_r, Z.mul_1_l. reflexivity.
    - replace ((1 + 1) * 2 ^ (b - 1)) with (2 ^ (1 + (b - 1))) by (rewrite Z.pow_add_r by lia; reflexivity). f_equal. lia. }
  destruct Pp as [Pp Pq]. assert (Pb : 2 ^ b <= 2 ^ 23) by (apply Z.pow_le_mono_r; lia).
  rewrite <- !qz_sub, (rn32_id (qz (r - _))) by (apply float_qz; nia). rewrite (rn32_id (qz (p - 1 - _))) by (apply float_qz; nia).
  rewrite <- qz_add, (rn32_id (qz (_ + 1))) by (apply float_qz; nia). replace (p - 1 - - p * k + 1) with (2 ^ b) by lia.
  assert (M : 0 < 2 ^ b) by lia. rewrite !floormod_qz by exact M. rewrite <- qz_add. apply rn32_id, float_qz.
  pose proof (Z.mod_pos_bound (r - - p * k) (2 ^ b) M). nia.
Qed.

(** Ties go to the even significand. *)
Lemma rn32_tie x z : (qabs x < pow2 127)%Qc -> float32 z -> z <> rn32 x -> qabs (x - z) = qabs (x - rn32 x) -> even32 (rn32 x).
Proof.
  intros Bx [m [e' [Ez [Hm He']]]] Nz D. unfold rn32 in *. destruct (qeqb_spec x (qz 0)) as [->|N].
  { exfalso. apply Nz. replace (qz 0 - qz 0)%Qc with (qz 0) in D by (rewrite qz_0; ring). rewrite qabs_qz in D. cbn [Z.abs] in D.
    destruct (qabs_spec (qz 0 - z)) as [[? E]|[? E]]; rewrite E in D; qlra. }
  cbv zeta in *. set (e := Z.max (flog2 (qabs x) - 23) (-149)) in *. set (t := (x * pow2 (- e))%Qc) in *.
  assert (Ex : x = (t * pow2 e)%Qc) by (unfold t; symmetry; apply mul_pow2_cancel').
  destruct (flog2_spec (qabs x) (qabs_pos x N)) as [F1 F2].
  assert (flog2 (qabs x) < 127) by (apply pow2_lt_inv; qlra).
  set (k := qround_even t) in *. destruct (qround_even_near t) as [R1 R2]. fold k in R1, R2.
  set (z' := (qz m * pow2 (e' - e))%Qc).
  assert (Ez' : z = (z' * pow2 e)%Qc) by (rewrite Ez; unfold z'; rewrite <- Qcmult_assoc, <- pow2_add; do 2 f_equal; lia).
  assert (D' : qabs (t - z') = qabs (t - qz k)).
  { rewrite Ez' in D. rewrite Ex in D at 1. rewrite abs_scale in D. rewrite Ex in D at 1. rewrite abs_scale in D. apply (pow2_mul_cancel_eq _ _ e). exact D. }
  assert (T : flog2 (qabs x) - 23 = e -> (qz (2 ^ 23) <= qabs t)%Qc).
  { intros E. unfold t. rewrite qabs_scale, <- pow2_Z by lia. replace 23 with (flog2 (qabs x) + - e) by lia. rewrite pow2_add.
    apply qmul_le_r; [pose proof (pow2_pos (- e)); qlra|exact F1]. }
  assert (Tu : (qabs t <= qz (2 ^ 24))%Qc).
  { unfold t. rewrite qabs_scale, <- pow2_Z by lia. apply Qcle_trans with (pow2 (flog2 (qabs x) + 1) * pow2 (- e))%Qc.
    - apply qmul_le_r; [pose proof (pow2_pos (- e)); qlra|qlra].
    - rewrite <- pow2_add. apply pow2_le. lia. }
  assert (Eo : forall a, qz (- a) = Qcopp (qz a)) by (intros; apply qz_opp).
  assert (K : Z.abs k <= 2 ^ 24).
  { apply qabs_le_iff in Tu. destruct Tu as [T1 T2]. apply Z.abs_le. split; [rewrite <- (qround_even_qz (- 2 ^ 24))|rewrite <- (qround_even_qz (2 ^ 24))]; apply qround_even_mono; rewrite ?Eo; assumption. }
  assert (K2 : flog2 (qabs x) - 23 = e -> 2 ^ 23 <= Z.abs k).
  { intros E. specialize (T E). destruct (qabs_spec t) as [[? Et]|[? Et]]; rewrite Et in T.
    - assert (2 ^ 23 <= k); [|lia]. unfold k. rewrite <- (qround_even_qz (2 ^ 23)). apply qround_even_mono. exact T.
    - assert (k <= - 2 ^ 23); [|lia]. unfold k. rewrite <- (qround_even_qz (- 2 ^ 23)). apply qround_even_mono. rewrite Eo. qlra. }
  assert (Ev : Z.even k = true -> even32 (qz k * pow2 e)%Qc).
  { intros Ek. destruct (Z.eq_dec (Z.abs k) (2 ^ 24)) as [A|A].
    - destruct (Z.abs_eq_or_opp k) as [A'|A']; rewrite A' in A.
      + exists (2 ^ 23), (e + 1). rewrite A. split; [|repeat split; try reflexivity; left; reflexivity || (cbn; lia)]. rewrite (regrid (2 ^ 23) (e + 1) e) by lia. do 2 f_equal. replace (e + 1 - e) with 1 by lia. reflexivity.
      + exists (- 2 ^ 23), (e + 1). replace k with (- 2 ^ 24) by lia. split; [|repeat split; try reflexivity; left; reflexivity || (cbn; lia)]. rewrite (regrid (- 2 ^ 23) (e + 1) e) by lia. do 2 f_equal. replace (e + 1 - e) with 1 by lia. reflexivity.
    - exists k, e. split; [reflexivity|]. split; [lia|]. split; [|exact Ek]. destruct (Z.eq_dec e (-149)) as [|Ne]; [right; assumption|left; apply K2; lia]. }
  apply Ev. destruct (Z.le_gt_cases e e') as [L|L].
  - (* on the grid *)
    assert (Ei : z' = qz (m * 2 ^ (e' - e))) by (unfold z'; rewrite qz_mul, <- pow2_Z by lia; reflexivity). rewrite Ei in D'. set (i := m * 2 ^ (e' - e)) in *.
    assert (Ni : i <> k). { intros E. apply Nz. rewrite Ez', Ei, E. reflexivity. }
    assert (Ht : t = (qz (qfloor t) + qhalf)%Qc -> Z.even k = true) by apply qround_even_tie.
    destruct (Z.lt_ge_cases i k) as [I|I].
    + assert (I' : (qz i + qz 1 <= qz k)%Qc) by (rewrite <- qz_add; apply qz_le; lia).
      apply Ht. assert (Et : t = (qz (k - 1) + qhalf)%Qc).
      { rewrite qz_sub. destruct (qabs_spec (t - qz i)) as [[? E1]|[? E1]]; destruct (qabs_spec (t - qz k)) as [[? E2]|[? E2]]; rewrite E1, E2 in D'; qlra. }
      assert (Ft : qfloor t = k - 1) by (apply qfloor_unique; rewrite Et; qlra). rewrite Ft. exact Et.
    + assert (I' : (qz k + qz 1 <= qz i)%Qc) by (rewrite <- qz_add; apply qz_le; lia).
      apply Ht. assert (Et : t = (qz k + qhalf)%Qc).
      { destruct (qabs_spec (t - qz i)) as [[? E1]|[? E1]]; destruct (qabs_spec (t - qz k)) as [[? E2]|[? E2]]; rewrite E1, E2 in D'; qlra. }
      assert (Ft : qfloor t = k) by (apply qfloor_unique; rewrite Et; qlra). rewrite Ft. exact Et.
  - exfalso. assert (Ee : flog2 (qabs x) - 23 = e) by lia. specialize (T Ee).
    assert (Z' : (qabs z' < qz (2 ^ 23))%Qc).
    { unfold z'. rewrite qabs_scale, qabs_qz. apply Qclt_le_trans with (pow2 24 * pow2 (e' - e))%Qc.
      - apply qmul_lt_r; [apply pow2_pos|]. rewrite pow2_Z by lia. apply qz_lt. lia.
      - rewrite <- pow2_add, <- pow2_Z by lia. apply pow2_le. lia. }
    apply qabs_lt_iff in Z'. destruct Z' as [Z1 Z2]. destruct (qabs_spec t) as [[T0 Et]|[T0 Et]]; rewrite Et in T.
    + pose proof (round_near t (2 ^ 23)) as RN. fold k in RN. rewrite <- D' in RN.
      destruct (qabs_spec (t - qz (2 ^ 23))) as [[? E1]|[? E1]]; destruct (qabs_spec (t - z')) as [[? E2]|[? E2]]; rewrite E1, E2 in RN; qlra.
    + pose proof (round_near t (- 2 ^ 23)) as RN. fold k in RN. rewrite <- D', Eo in RN.
      destruct (qabs_spec (t - - qz (2 ^ 23))) as [[? E1]|[? E1]]; destruct (qabs_spec (t - z')) as [[? E2]|[? E2]]; rewrite E1, E2 in RN; qlra.
Qed.
