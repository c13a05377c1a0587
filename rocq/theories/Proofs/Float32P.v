(** Facts about single precision. *)
From Coq Require Import ZArith Qcanon Bool Lia.
From Verif Require Import Base.Num Base.NumFacts Model.Float32 Spec.Float.
Local Open Scope Z_scope.

Lemma pow2_sub_mul a b : pow2 a = (qz (2 ^ (a - b)) * pow2 b)%Qc \/ a < b.
Proof.
  destruct (Z.lt_ge_cases a b) as [L|L]; [right; exact L|left]. rewrite <- pow2_Z by lia. rewrite <- pow2_add. f_equal. lia.
Qed.

(** A multiple of 2^a is a multiple of 2^b, b <= a. *)
Lemma regrid m a b : b <= a -> (qz m * pow2 a)%Qc = (qz (m * 2 ^ (a - b)) * pow2 b)%Qc.
Proof. intros H. rewrite qz_mul, <- (pow2_Z (a - b)) by lia. rewrite <- Qcmult_assoc, <- pow2_add. do 2 f_equal. lia. Qed.

Lemma abs_scale a b e : (qabs (a * pow2 e - b * pow2 e) = qabs (a - b) * pow2 e)%Qc.
Proof.
  pose proof (pow2_pos e) as P. replace (a * pow2 e - b * pow2 e)%Qc with ((a - b) * pow2 e)%Qc by ring. set (d := (a - b)%Qc).
  destruct (qabs_spec d) as [[H ->]|[H ->]]; destruct (qabs_spec (d * pow2 e)) as [[H' ->]|[H' ->]]; try ring.
  - exfalso. assert (qz 0 * pow2 e <= d * pow2 e)%Qc by (apply qmul_le_r; [qlra|exact H]). qnra.
  - exfalso. assert (d * pow2 e < qz 0 * pow2 e)%Qc by (apply qmul_lt_r; [exact P|exact H]). qnra.
Qed.

Lemma qabs_scale a e : (qabs (a * pow2 e) = qabs a * pow2 e)%Qc.
Proof.
  pose proof (abs_scale a (qz 0) e) as H. replace (a * pow2 e - qz 0 * pow2 e)%Qc with (a * pow2 e)%Qc in H by (unfold Qcminus; rewrite qz_0; ring).
  replace (a - qz 0)%Qc with a in H by (rewrite qz_0; ring). exact H.
Qed.

Lemma qabs_qz m : qabs (qz m) = qz (Z.abs m).
Proof.
  destruct (qabs_spec (qz m)) as [[H ->]|[H ->]].
  - assert (0 <= m) by (apply qz_le; exact H). rewrite Z.abs_eq by lia. reflexivity.
  - assert (m < 0) by (apply qz_lt; exact H). rewrite Z.abs_neq by lia. symmetry. apply qz_opp.
Qed.

Lemma qabs_pos x : x <> qz 0 -> (qz 0 < qabs x)%Qc.
Proof. intros H. destruct (qc_neq_lt _ _ H); destruct (qabs_spec x) as [[? ->]|[? ->]]; qlra. Qed.

(** The nearest integer is nearest. *)
Lemma round_near t n : (qabs (t - qz (qround_even t)) <= qabs (t - qz n))%Qc.
Proof.
  destruct (qround_even_near t) as [H1 H2]. set (k := qround_even t) in *. destruct (Z.lt_trichotomy n k) as [L|[->|L]].
  - assert (L' : (qz n + qz 1 <= qz k)%Qc) by (rewrite <- qz_add; apply qz_le; lia).
    destruct (qabs_spec (t - qz k)) as [[? ->]|[? ->]]; destruct (qabs_spec (t - qz n)) as [[? ->]|[? ->]]; qlra.
  - qlra.
  - assert (L' : (qz k + qz 1 <= qz n)%Qc) by (rewrite <- qz_add; apply qz_le; lia).
    destruct (qabs_spec (t - qz k)) as [[? ->]|[? ->]]; destruct (qabs_spec (t - qz n)) as [[? ->]|[? ->]]; qlra.
Qed.

(** Floats of magnitude at least 2^j are multiples of 2^(j-23). *)
Lemma float_unit x j : float32 x -> (pow2 j <= qabs x)%Qc -> exists k, x = (qz k * pow2 (j - 23))%Qc.
Proof.
  intros [m [e [-> [Hm He]]]] H. rewrite qabs_scale, qabs_qz in H.
  assert (B : (qz (Z.abs m) < pow2 24)%Qc) by (rewrite pow2_Z by lia; apply qz_lt; lia).
  assert (B2 : (qz (Z.abs m) * pow2 e < pow2 (24 + e))%Qc) by (rewrite pow2_add; apply qmul_lt_r; [apply pow2_pos|exact B]).
  assert (j < 24 + e) by (apply pow2_lt_inv; qlra).
  exists (m * 2 ^ (e - (j - 23))). apply regrid. lia.
Qed.

(** And those of magnitude at least 2^j that are multiples of a coarser unit too. *)
Lemma float_grid k e : - 2 ^ 24 <= k <= 2 ^ 24 -> -149 <= e <= 103 -> float32 (qz k * pow2 e)%Qc.
Proof.
  intros Hk He. destruct (Z.eq_dec k (2 ^ 24)) as [->|]; [|destruct (Z.eq_dec k (- 2 ^ 24)) as [->|]].
  - exists (2 ^ 23), (e + 1). split; [|lia]. rewrite (regrid (2 ^ 23) (e + 1) e) by lia. do 2 f_equal. replace (e + 1 - e) with 1 by lia. reflexivity.
  - exists (- 2 ^ 23), (e + 1). split; [|lia]. rewrite (regrid (- 2 ^ 23) (e + 1) e) by lia. do 2 f_equal. replace (e + 1 - e) with 1 by lia. reflexivity.
  - exists k, e. split; [reflexivity|lia].
Qed.

Lemma rn32_dist x z : float32 z -> (qabs (x - rn32 x) <= qabs (x - z))%Qc.
Proof.
  intros Hz. unfold rn32. destruct (qeqb_spec x (qz 0)) as [->|N].
  { replace (qz 0 - qz 0)%Qc with (qz 0) by (rewrite qz_0; ring). destruct (qabs_spec (qz 0)) as [[? ->]|[? ->]]; pose proof (qabs_nonneg (qz 0 - z)%Qc); qlra. }
  cbv zeta. set (e := Z.max (flog2 (qabs x) - 23) (-149)). set (t := (x * pow2 (- e))%Qc).
  assert (Ex : x = (t * pow2 e)%Qc) by (unfold t; symmetry; apply mul_pow2_cancel').
  destruct (flog2_spec (qabs x) (qabs_pos x N)) as [F1 F2].
  destruct Hz as [m [e' [Ez [Hm He']]]].
  destruct (Z.le_gt_cases e e') as [L|L].
  - rewrite Ez, (regrid m e' e L). rewrite Ex at 1 2. rewrite !abs_scale. apply qmul_le_r; [pose proof (pow2_pos e); qlra|]. apply round_near.
  - assert (Ee : e = flog2 (qabs x) - 23) by lia.
    set (z' := (qz m * pow2 (e' - e))%Qc).
    assert (Ez' : z = (z' * pow2 e)%Qc) by (rewrite Ez; unfold z'; rewrite <- Qcmult_assoc, <- pow2_add; do 2 f_equal; lia).
    rewrite Ez'. rewrite Ex at 1 2. rewrite !abs_scale. apply qmul_le_r; [pose proof (pow2_pos e); qlra|].
    assert (T : (qz (2 ^ 23) <= qabs t)%Qc).
    { unfold t. rewrite qabs_scale, <- pow2_Z by lia. replace 23 with (flog2 (qabs x) + - e) by lia. rewrite pow2_add.
      apply qmul_le_r; [pose proof (pow2_pos (- e)); qlra|exact F1]. }
    assert (Z' : (qabs z' <= qz (2 ^ 23))%Qc).
    { unfold z'. rewrite qabs_scale, qabs_qz. apply Qcle_trans with (pow2 24 * pow2 (-1))%Qc; [|rewrite <- pow2_add, <- pow2_Z by lia; apply Qcle_refl].
      apply Qcle_trans with (pow2 24 * pow2 (e' - e))%Qc.
      - apply qmul_le_r; [pose proof (pow2_pos (e' - e)); qlra|]. rewrite pow2_Z by lia. apply qz_le. lia.
      - rewrite (Qcmult_comm (pow2 24)), (Qcmult_comm (pow2 24)). apply qmul_le_r; [pose proof (pow2_pos 24); qlra|apply pow2_le; lia]. }
    destruct (qabs_spec t) as [[T0 Et]|[T0 Et]]; rewrite Et in T.
    + apply Qcle_trans with (qabs (t - qz (2 ^ 23))); [apply round_near|].
      destruct (qabs_spec z') as [[? Ez2]|[? Ez2]]; rewrite Ez2 in Z';
      destruct (qabs_spec (t - qz (2 ^ 23))) as [[? ->]|[? ->]]; destruct (qabs_spec (t - z')) as [[? ->]|[? ->]]; qlra.
    + apply Qcle_trans with (qabs (t - qz (- 2 ^ 23))); [apply round_near|].
      assert (Eo : qz (- 2 ^ 23) = Qcopp (qz (2 ^ 23))) by apply qz_opp. rewrite Eo.
      destruct (qabs_spec z') as [[? Ez2]|[? Ez2]]; rewrite Ez2 in Z';
      destruct (qabs_spec (t - - qz (2 ^ 23))) as [[? ->]|[? ->]]; destruct (qabs_spec (t - z')) as [[? ->]|[? ->]]; qlra.
Qed.

Lemma rn32_id x : float32 x -> rn32 x = x.
Proof.
  intros H. pose proof (rn32_dist x x H) as D. replace (x - x)%Qc with (qz 0) in D by (rewrite qz_0; ring).
  destruct (qabs_spec (qz 0)) as [[? E]|[? E]]; rewrite E in D; destruct (qabs_spec (x - rn32 x)) as [[? E2]|[? E2]]; rewrite E2 in D; qlra.
Qed.
Lemma rn32_le x z : float32 z -> (x <= z)%Qc -> (rn32 x <= z)%Qc.
Proof.
  intros Hz L. pose proof (rn32_dist x z Hz) as D.
  destruct (qabs_spec (x - z)) as [[? E]|[? E]]; rewrite E in D; destruct (qabs_spec (x - rn32 x)) as [[? E2]|[? E2]]; rewrite E2 in D; qlra.
Qed.
Lemma rn32_ge x z : float32 z -> (z <= x)%Qc -> (z <= rn32 x)%Qc.
Proof.
  intros Hz L. pose proof (rn32_dist x z Hz) as D.
  destruct (qabs_spec (x - z)) as [[? E]|[? E]]; rewrite E in D; destruct (qabs_spec (x - rn32 x)) as [[? E2]|[? E2]]; rewrite E2 in D; qlra.
Qed.

Lemma rn32_float x : (qabs x < pow2 127)%Qc -> float32 (rn32 x).
Proof.
  intros B. unfold rn32. destruct (qeqb_spec x (qz 0)) as [->|N].
  { exists 0, 0. split; [rewrite pow2_0, qz_0; ring|lia]. }
  cbv zeta. set (e := Z.max (flog2 (qabs x) - 23) (-149)). destruct (flog2_spec (qabs x) (qabs_pos x N)) as [F1 F2].
  assert (flog2 (qabs x) < 127) by (apply pow2_lt_inv; qlra).
  apply float_grid; [|lia].
  assert (T : (qabs (x * pow2 (- e)) <= qz (2 ^ 24))%Qc).
  { rewrite qabs_scale, <- pow2_Z by lia. apply Qcle_trans with (pow2 (flog2 (qabs x) + 1) * pow2 (- e))%Qc.
    - apply qmul_le_r; [pose proof (pow2_pos (- e)); qlra|qlra].
    - rewrite <- pow2_add. apply pow2_le. lia. }
  assert (Eo : qz (- 2 ^ 24) = Qcopp (qz (2 ^ 24))) by apply qz_opp.
  split; [rewrite <- (qround_even_qz (- 2 ^ 24))|rewrite <- (qround_even_qz (2 ^ 24))]; apply qround_even_mono;
    destruct (qabs_spec (x * pow2 (- e))) as [[? E]|[? E]]; rewrite E in T; try rewrite Eo; qlra.
Qed.

(** ** Scaling by powers of two *)

Lemma qz1 : qz 1 = Q2Qc 1.
Proof. apply Qc_is_canon. reflexivity. Qed.

Lemma flog2_scale x n : (qz 0 < x)%Qc -> flog2 (x * pow2 n)%Qc = flog2 x + n.
Proof.
  intros H. destruct (flog2_spec x H) as [F1 F2]. apply flog2_unique.
  - rewrite pow2_add. apply qmul_le_r; [pose proof (pow2_pos n); qlra|exact F1].
  - replace (flog2 x + n + 1) with (flog2 x + 1 + n) by lia. rewrite pow2_add. apply qmul_lt_r; [apply pow2_pos|exact F2].
Qed.

Lemma pow2_mul_cancel_eq a b n : (a * pow2 n = b * pow2 n)%Qc -> a = b.
Proof. intros H. rewrite <- (mul_pow2_cancel a n), <- (mul_pow2_cancel b n), H. reflexivity. Qed.

Lemma rn32_scale x n : (pow2 (-126) <= qabs x)%Qc -> (pow2 (-126) <= qabs (x * pow2 n))%Qc ->
  rn32 (x * pow2 n)%Qc = (rn32 x * pow2 n)%Qc.
Proof.
  intros H H'. unfold rn32.
  assert (N : x <> qz 0).
  { intros ->. destruct (qabs_spec (qz 0)) as [[_ E]|[_ E]]; rewrite E in H; pose proof (pow2_pos (-126)); qlra. }
  assert (N' : (x * pow2 n)%Qc <> qz 0).
  { intros E. apply N. apply (pow2_mul_cancel_eq _ _ n). rewrite E, qz_0. ring. }
  destruct (qeqb_spec x (qz 0)) as [E|_]; [contradiction|]. destruct (qeqb_spec (x * pow2 n) (qz 0)) as [E|_]; [contradiction|].
  rewrite qabs_scale in *. pose proof (qabs_pos x N) as P. rewrite flog2_scale by exact P.
  assert (A1 : -126 <= flog2 (qabs x)). { rewrite <- (flog2_pow2 (-126)). destruct (Z.le_gt_cases (flog2 (pow2 (-126))) (flog2 (qabs x))) as [L|L]; [exact L|].
    rewrite flog2_pow2 in L. apply (flog2_lt_iff _ (-126) P) in L. qlra. }
  assert (P' : (qz 0 < qabs x * pow2 n)%Qc) by (rewrite <- qabs_scale; apply qabs_pos; exact N').
  assert (A2 : -126 <= flog2 (qabs x) + n). { rewrite <- flog2_scale by exact P. destruct (Z.le_gt_cases (-126) (flog2 (qabs x * pow2 n))) as [L|L]; [exact L|].
    apply (flog2_lt_iff _ (-126) P') in L. qlra. }
  cbv zeta. rewrite !Z.max_l by lia. set (e := flog2 (qabs x) - 23). replace (flog2 (qabs x) + n - 23) with (e + n) by lia.
  rewrite (pow2_add e n), Qcmult_assoc. do 4 f_equal. rewrite <- Qcmult_assoc, <- pow2_add. do 2 f_equal. lia.
Qed.

Lemma float_opp x : float32 x -> float32 (- x)%Qc.
Proof. intros [m [e [-> [Hm He]]]]. exists (- m), e. split; [rewrite qz_opp; ring|lia]. Qed.
Lemma float_0 : float32 (qz 0).
Proof. exists 0, 0. split; [rewrite qz_0; ring|lia]. Qed.
Lemma float_qz k : - 2 ^ 24 <= k <= 2 ^ 24 -> float32 (qz k).
Proof. intros H. replace (qz k) with (qz k * pow2 0)%Qc by (rewrite pow2_0, <- qz_mul; f_equal; lia). apply float_grid; lia. Qed.
Lemma float_half : float32 qhalf.
Proof. replace qhalf with (qz 1 * pow2 (-1))%Qc by (apply Qc_is_canon; vm_compute; reflexivity). apply float_grid; lia. Qed.

(** Scaling a float keeps it a float when the result is neither tiny nor huge. *)
Lemma float_scale x n : float32 x -> (qabs (x * pow2 n) < pow2 100)%Qc -> (pow2 (-2) <= qabs (x * pow2 n))%Qc -> float32 (x * pow2 n)%Qc.
Proof.
  intros [m [e [-> [Hm He]]]] U L. rewrite <- Qcmult_assoc, <- pow2_add in *. rewrite qabs_scale, qabs_qz in *.
  exists m, (e + n). split; [reflexivity|]. split; [exact Hm|].
  assert (m <> 0). { intros ->. cbn in L. rewrite qz_0, Qcmult_0_l in L. pose proof (pow2_pos (-2)). qlra. }
  assert (H1 : (pow2 (e + n) < pow2 100)%Qc).
  { apply Qcle_lt_trans with (qz (Z.abs m) * pow2 (e + n))%Qc; [|exact U].
    replace (pow2 (e + n)) with (qz 1 * pow2 (e + n))%Qc at 1 by (rewrite qz1; ring). apply qmul_le_r; [pose proof (pow2_pos (e + n)); qlra|apply qz_le; lia]. }
  assert (H2 : (pow2 (-2) < pow2 (24 + (e + n)))%Qc).
  { apply Qcle_lt_trans with (qz (Z.abs m) * pow2 (e + n))%Qc; [exact L|]. rewrite (pow2_add 24). apply qmul_lt_r; [apply pow2_pos|].
    rewrite pow2_Z by lia. apply qz_lt. lia. }
  apply pow2_lt_inv in H1, H2. lia.
Qed.

(** ** floor(s + 1/2) in single precision *)

Definition pred_half : Qc := (qhalf - pow2 (-25))%Qc.

Lemma grid_gap a b e : (exists k, a = (qz k * pow2 e)%Qc) -> (exists k, b = (qz k * pow2 e)%Qc) -> (a < b)%Qc -> (a <= b - pow2 e)%Qc.
Proof.
  intros [k ->] [l ->] H. apply qmul_lt_r_inv in H; [|apply pow2_pos]. apply (proj1 (qz_lt _ _)) in H.
  replace (qz l * pow2 e - pow2 e)%Qc with (qz (l - 1) * pow2 e)%Qc by (rewrite qz_sub, qz1; ring).
  apply qmul_le_r; [pose proof (pow2_pos e); qlra|apply qz_le; lia].
Qed.

Lemma half_grid k e : e <= -1 -> exists l, (qz k + qhalf = qz l * pow2 e)%Qc.
Proof.
  intros H. exists ((2 * k + 1) * 2 ^ (-1 - e)). rewrite <- (regrid (2 * k + 1) (-1) e) by lia.
  rewrite qz_add, qz_mul, qz1. replace (pow2 (-1)) with qhalf by (apply Qc_is_canon; vm_compute; reflexivity).
  apply qc_eq. q_prep. ring.
Qed.
Lemma int_grid k e : e <= 0 -> (qz k = qz (k * 2 ^ (- e)) * pow2 e)%Qc.
Proof. intros H. replace (qz k) with (qz k * pow2 0)%Qc by (rewrite pow2_0, qz1; ring). rewrite (regrid k 0 e) by lia. do 2 f_equal. Qed.

(** Below 2^23. *)
Lemma floor_half_small s : float32 s -> (qabs s < pow2 23)%Qc -> s <> pred_half -> qfloor (rn32 (s + qhalf)) = qfloor (s + qhalf).
Proof.
  intros Hs Hb Np. set (n0 := qfloor (s + qhalf)).
  pose proof (qfloor_le (s + qhalf)) as L1. pose proof (qfloor_lt (s + qhalf)) as L2. fold n0 in L1, L2.
  assert (P23 : pow2 23 = qz (2 ^ 23)) by (apply pow2_Z; lia).
  assert (Hb' : (- qz (2 ^ 23) < s)%Qc /\ (s < qz (2 ^ 23))%Qc) by (rewrite P23 in Hb; destruct (qabs_spec s) as [[? E]|[? E]]; rewrite E in Hb; qlra).
  destruct Hb' as [Hl Hu].
  assert (B0 : - 2 ^ 23 <= n0 <= 2 ^ 23).
  { split.
    - apply Z.lt_succ_r. apply qz_lt. unfold Z.succ. rewrite qz_opp, qz_add. qlra.
    - apply Z.lt_succ_r. apply qz_lt. unfold Z.succ. rewrite qz_add. qlra. }
  assert (Gz : (exists z, float32 z /\ (s + qhalf <= z)%Qc /\ (z < qz n0 + qz 1)%Qc) -> qfloor (rn32 (s + qhalf)) = n0).
  { intros [z [Fz [Z1 Z2]]]. apply qfloor_unique.
    - apply rn32_ge; [apply float_qz; lia|exact L1].
    - apply Qcle_lt_trans with z; [apply rn32_le; assumption|exact Z2]. }
  apply Gz. clear Gz.
  assert (Up : forall j, -1 <= j <= 22 -> (s <= qz n0 + qhalf - pow2 (j - 23))%Qc -> Z.abs n0 + 1 <= 2 ^ (j + 1) + (if 0 <=? n0 then 0 else 1) ->
    exists z, float32 z /\ (s + qhalf <= z)%Qc /\ (z < qz n0 + qz 1)%Qc).
  { intros j Hj Hsj Hn. exists (qz n0 + qz 1 - pow2 (j - 23))%Qc. pose proof (pow2_pos (j - 23)) as Pj. split; [|qlra].
    assert (E : (qz n0 + qz 1 - pow2 (j - 23) = qz ((n0 + 1) * 2 ^ (23 - j) - 1) * pow2 (j - 23))%Qc).
    { rewrite <- qz_add, (int_grid (n0 + 1) (j - 23)) by lia. replace (- (j - 23)) with (23 - j) by lia. rewrite qz_sub, qz1. ring. }
    rewrite E. apply float_grid; [|lia].
    assert (Hp : 2 ^ 24 = 2 ^ (j + 1) * 2 ^ (23 - j)) by (rewrite <- Z.pow_add_r by lia; f_equal; lia).
    assert (0 < 2 ^ (23 - j)) by (apply Z.pow_pos_nonneg; lia). rewrite Hp. destruct (Z.leb_spec 0 n0); nia. }
  destruct (Z.lt_trichotomy n0 0) as [N|[N|N]].
  - (* negative *)
    set (a := (- (qz n0 + qhalf))%Qc).
    assert (Na : (qz n0 + qz 1 <= qz 0)%Qc) by (rewrite <- qz_add; apply qz_le; lia).
    assert (Pa : (qz 0 < a)%Qc) by (unfold a; qlra).
    destruct (flog2_spec a Pa) as [F1 F2]. set (j := flog2 a) in *.
    assert (Ha : (qhalf <= a)%Qc) by (unfold a; qlra).
    assert (Hj : -1 <= j <= 22).
    { split.
      - apply Z.lt_succ_r. apply pow2_lt_inv. apply Qcle_lt_trans with a; [|exact F2]. replace (pow2 (-1)) with qhalf by (apply Qc_is_canon; vm_compute; reflexivity). exact Ha.
      - apply Z.lt_succ_r. apply pow2_lt_inv. apply Qcle_lt_trans with a; [exact F1|]. change (Z.succ 22) with 23. rewrite P23. unfold a.
        assert (qz (- 2 ^ 23) <= qz n0)%Qc by (apply qz_le; lia). rewrite qz_opp in H. qlra. }
    assert (Hs' : (pow2 j <= qabs s)%Qc) by (destruct (qabs_spec s) as [[? ->]|[? ->]]; unfold a in *; qlra).
    apply (Up j Hj).
    + apply grid_gap; [apply float_unit; assumption| |qlra]. apply half_grid. lia.
    + destruct (Z.leb_spec 0 n0); [lia|]. assert (- n0 <= 2 ^ (j + 1)); [|lia].
      apply Z.lt_pred_le. apply qz_lt. rewrite <- pow2_Z by lia. unfold Z.pred, a in *. rewrite qz_add, qz_opp. qlra.
  - (* zero *)
    rewrite N in L1, L2 |- *. rewrite N in Up.
    assert (S1 : (s <= qhalf - pow2 (-25))%Qc).
    { destruct (qleb_spec (pow2 (-2)) s) as [C|C].
      - assert (G : exists k, s = (qz k * pow2 (-2 - 23))%Qc) by (apply float_unit; [exact Hs|destruct (qabs_spec s) as [[? ->]|[? ->]]; pose proof (pow2_pos (-2)); qlra]).
        change (-2 - 23) with (-25) in G. apply grid_gap; [exact G| |qlra]. destruct (half_grid 0 (-25)) as [l El]; [lia|]. exists l. rewrite <- El, qz_0. ring.
      - assert (pow2 (-2) + pow2 (-25) < qhalf)%Qc by (vm_compute; reflexivity). qlra. }
    exists (qz 1 - pow2 (-24))%Qc. split; [|split].
    + replace (qz 1 - pow2 (-24))%Qc with (qz (2 ^ 24 - 1) * pow2 (-24))%Qc by (apply Qc_is_canon; vm_compute; reflexivity). apply float_grid; lia.
    + assert (S2 : (s <= qhalf - pow2 (-24))%Qc); [|qlra].
      destruct (qleb_spec s (qhalf - pow2 (-24))) as [C|C]; [exact C|exfalso]. apply Np.
      assert (Q : (pow2 (-2) <= qhalf - pow2 (-24))%Qc) by (vm_compute; intros; discriminate).
      assert (G : exists k, s = (qz k * pow2 (-2 - 23))%Qc) by (apply float_unit; [exact Hs|destruct (qabs_spec s) as [[? ->]|[? ->]]; pose proof (pow2_pos (-2)); qlra]).
      change (-2 - 23) with (-25) in G. destruct G as [k Ek].
      assert (T1 : (qhalf - pow2 (-24) = qz (2 ^ 24 - 2) * pow2 (-25))%Qc) by (apply Qc_is_canon; vm_compute; reflexivity).
      assert (T2 : (qhalf - pow2 (-25) = qz (2 ^ 24 - 1) * pow2 (-25))%Qc) by (apply Qc_is_canon; vm_compute; reflexivity).
      rewrite T1, Ek in C. rewrite T2, Ek in S1. apply qmul_lt_r_inv in C; [|apply pow2_pos]. apply qmul_le_r_inv in S1; [|apply pow2_pos].
      apply (proj1 (qz_lt _ _)) in C. apply (proj1 (qz_le _ _)) in S1. unfold pred_half. rewrite T2, Ek. do 2 f_equal. lia.
    + pose proof (pow2_pos (-24)). qlra.
  - (* positive *)
    destruct (Z.eq_dec n0 (2 ^ 23)) as [E|E].
    + (* s = 2^23 - 1/2 *)
      exists (s + qhalf)%Qc. split; [|split; [qlra|exact L2]].
      rewrite E in L1. assert (G : exists k, s = (qz k * pow2 (22 - 23))%Qc).
      { apply float_unit; [exact Hs|]. assert (pow2 22 <= qz (2 ^ 23) - qhalf)%Qc by (vm_compute; intros; discriminate). destruct (qabs_spec s) as [[? ->]|[? ->]]; qlra. }
      change (22 - 23) with (-1) in G.
      assert (S1 : (s <= qz (2 ^ 23) - pow2 (-1))%Qc).
      { apply grid_gap; [exact G| |exact Hu]. exists (2 ^ 24). apply Qc_is_canon; vm_compute; reflexivity. }
      assert (Eh : pow2 (-1) = qhalf) by (apply Qc_is_canon; vm_compute; reflexivity). rewrite Eh in S1.
      assert (Ey : (s + qhalf)%Qc = qz (2 ^ 23)) by qlra. rewrite Ey. apply float_qz. lia.
    + set (h := (qz n0 + qhalf)%Qc).
      assert (Nn : (qz 1 <= qz n0)%Qc) by (apply qz_le; lia).
      assert (Ph : (qz 0 < h)%Qc) by (unfold h; qlra).
      destruct (flog2_spec h Ph) as [F1 F2]. set (j := flog2 h) in *.
      assert (Hj : 0 <= j <= 22).
      { split.
        - apply Z.lt_succ_r. apply pow2_lt_inv. apply Qcle_lt_trans with h; [|exact F2]. rewrite pow2_0. unfold h. qlra.
        - apply Z.lt_succ_r. apply pow2_lt_inv. apply Qcle_lt_trans with h; [exact F1|]. change (Z.succ 22) with 23. rewrite P23. unfold h.
          assert (qz n0 + qz 1 <= qz (2 ^ 23))%Qc by (rewrite <- qz_add; apply qz_le; lia). qlra. }
      assert (Jn : 2 ^ j <= n0).
      { apply Z.lt_succ_r. apply qz_lt. unfold Z.succ. rewrite qz_add, <- pow2_Z by lia. unfold h in F1. qlra. }
      apply (Up j); [lia| |].
      * destruct (qleb_spec (pow2 j) s) as [C|C].
        -- apply grid_gap; [apply float_unit; [exact Hs|destruct (qabs_spec s) as [[? ->]|[? ->]]; pose proof (pow2_pos j); qlra]| |qlra]. apply half_grid. lia.
        -- assert (pow2 (j - 23) <= pow2 (-1))%Qc by (apply pow2_le; lia). assert (Eh : pow2 (-1) = qhalf) by (apply Qc_is_canon; vm_compute; reflexivity). rewrite Eh in H.
           assert (pow2 j <= qz n0)%Qc by (rewrite pow2_Z by lia; apply qz_le; exact Jn). qlra.
      * destruct (Z.leb_spec 0 n0); [|lia]. rewrite Z.add_0_r, Z.abs_eq by lia.
        assert (Hlt : n0 < 2 ^ (j + 1)); [|lia]. apply qz_lt. rewrite <- pow2_Z by lia. unfold h in F2. qlra.
Qed.

(** At or above 2^23. *)
Lemma floor_half_big s : float32 s -> (pow2 23 <= qabs s)%Qc -> exists k, s = qz k /\
  (rn32 (s + qhalf) = qz (if (Z.abs k <? 2 ^ 24) && Z.odd k then k + 1 else k) \/ rn32 (s + qhalf) = (qz k + qhalf)%Qc /\ Z.odd k = false).
Proof.
  intros Hs Hb. destruct (float_unit s 23 Hs Hb) as [k Ek]. change (23 - 23) with 0 in Ek. rewrite pow2_0, qz1, Qcmult_1_r in Ek. subst s. exists k. split; [reflexivity|].
  rewrite qabs_qz, (pow2_Z 23) in Hb by lia. apply (proj1 (qz_le _ _)) in Hb.
  set (x := (qz k + qhalf)%Qc).
  assert (N : x <> qz 0).
  { intros E. unfold x in E. assert (E2 : qz (2 * k + 1) = qz 0) by (rewrite qz_add, qz_mul; assert (qz 2 = qz 1 + qz 1)%Qc by (rewrite <- qz_add; reflexivity); rewrite H; assert (qz 1 = qhalf + qhalf)%Qc by (apply Qc_is_canon; vm_compute; reflexivity); rewrite H0; assert (qz k = - qhalf)%Qc by qlra; rewrite H1; assert ((qhalf + qhalf) = q1)%Qc by (apply Qc_is_canon; vm_compute; reflexivity); rewrite H2; apply Qc_is_canon; vm_compute; reflexivity).
    apply qz_inj in E2. lia. }
  destruct (flog2_spec (qabs x) (qabs_pos x N)) as [F1 F2]. unfold rn32. destruct (qeqb_spec x (qz 0)) as [C|_]; [contradiction|]. cbv zeta.
  set (j := flog2 (qabs x)) in *.
  assert (Ax : qabs x = if 0 <=? k then (qz k + qhalf)%Qc else (qz (- k) - qhalf)%Qc).
  { unfold x in *. rewrite qz_opp. destruct (Z.leb_spec 0 k).
    - assert (qz 1 <= qz k)%Qc by (apply qz_le; lia). destruct (qabs_spec (qz k + qhalf)) as [[? ->]|[? ->]]; qlra.
    - assert (qz k <= qz (- 1))%Qc by (apply qz_le; lia). destruct (qabs_spec (qz k + qhalf)) as [[? ->]|[? ->]]; qlra. }
  assert (J : 22 <= j).
  { apply Z.lt_succ_r. apply pow2_lt_inv. apply Qcle_lt_trans with (qabs x); [|exact F2]. rewrite Ax, (pow2_Z 22) by lia. destruct (Z.leb_spec 0 k).
    - assert (qz (2 ^ 22) <= qz k)%Qc by (apply qz_le; lia). qlra.
    - assert (qz (2 ^ 22) + qz 1 <= qz (- k))%Qc by (rewrite <- qz_add; apply qz_le; lia). qlra. }
  rewrite Z.max_l by lia.
  destruct (Z.eq_dec j 22) as [J2|J2]; [|destruct (Z.eq_dec j 23) as [J3|J3]].
  - right. rewrite J2 in *. change (22 - 23) with (-1). change (- -1) with 1.
    assert (Ek : (x * pow2 1 = qz (2 * k + 1))%Qc).
    { unfold x. replace (pow2 1) with (qz 2) by (apply Qc_is_canon; vm_compute; reflexivity). rewrite qz_add, qz_mul. apply qc_eq. q_prep. ring. }
    rewrite Ek, qround_even_qz, <- Ek. split; [rewrite <- (mul_pow2_cancel x 1) at 2; reflexivity|].
    rewrite Ax in F2. change (22 + 1) with 23 in F2. rewrite (pow2_Z 23) in F2 by lia.
    destruct (Z.leb_spec 0 k).
    + assert (qz (2 ^ 23) <= qz k)%Qc by (apply qz_le; lia). qlra.
    + assert (Hk : (qz (- k) < qz (2 ^ 23) + qz 1)%Qc) by qlra. rewrite <- qz_add in Hk. apply (proj1 (qz_lt _ _)) in Hk.
      replace k with (- 2 ^ 23) by lia. reflexivity.
  - left. rewrite J3 in *. change (23 - 23) with 0. change (- 0) with 0. rewrite pow2_0, qz1, !Qcmult_1_r. f_equal.
    assert (Hk : Z.abs k < 2 ^ 24 \/ k = - 2 ^ 24).
    { rewrite Ax in F2. change (23 + 1) with 24 in F2. rewrite (pow2_Z 24) in F2 by lia. destruct (Z.leb_spec 0 k).
      - left. assert (Hk : (qz k < qz (2 ^ 24))%Qc) by qlra. apply (proj1 (qz_lt _ _)) in Hk. lia.
      - assert (Hk : (qz (- k) < qz (2 ^ 24) + qz 1)%Qc) by qlra. rewrite <- qz_add in Hk. apply (proj1 (qz_lt _ _)) in Hk. lia. }
    destruct (qround_even_near x) as [R1 R2]. pose proof (qround_even_tie x) as T.
    assert (Fx : qfloor x = k) by (apply qfloor_unique; unfold x; qlra). rewrite Fx in T. specialize (T eq_refl). set (r := qround_even x) in *. unfold x in R1, R2.
    assert (r <= k + 1) by (apply qz_le; rewrite qz_add; qlra). assert (k <= r) by (apply qz_le; qlra).
    rewrite <- Z.negb_odd in T. destruct (Z.eq_dec r k) as [->|].
    + destruct (Z.odd k); [discriminate|]. rewrite andb_false_r. reflexivity.
    + assert (r = k + 1) by lia. assert (Z.odd k = true). { rewrite H1, Z.odd_add in T. destruct (Z.odd k); [reflexivity|discriminate]. }
      rewrite H2. destruct Hk as [Hk| ->]; [|discriminate]. destruct (Z.ltb_spec (Z.abs k) (2 ^ 24)); [cbn; lia|lia].
  - left. assert (J4 : 24 <= j) by lia.
    assert (Hk : 2 ^ j <= Z.abs k).
    { rewrite Ax in F1. destruct (Z.leb_spec 0 k); apply Z.lt_succ_r; apply qz_lt; unfold Z.succ; rewrite qz_add, <- pow2_Z by lia.
      - rewrite Z.abs_eq by lia. qlra.
      - rewrite Z.abs_neq by lia. qlra. }
    assert (2 ^ 24 <= 2 ^ j) by (apply Z.pow_le_mono_r; lia).
    destruct (Z.ltb_spec (Z.abs k) (2 ^ 24)); [lia|]. cbn [andb].
    destruct (float_unit (qz k) j Hs) as [m Em]. { rewrite qabs_qz, pow2_Z by lia. apply qz_le. exact Hk. }
    rewrite Em. f_equal. f_equal. set (e := j - 23) in *.
    assert (Et : (x * pow2 (- e) = qz m + pow2 (-1 - e))%Qc).
    { unfold x. rewrite Em, Qcmult_plus_distr_l, mul_pow2_cancel. f_equal. replace qhalf with (pow2 (-1)) by (apply Qc_is_canon; vm_compute; reflexivity). rewrite <- pow2_add. f_equal. }
    rewrite Et. destruct (qround_even_near (qz m + pow2 (-1 - e))) as [R1 R2]. set (r := qround_even (qz m + pow2 (-1 - e))) in *.
    pose proof (pow2_pos (-1 - e)). assert (pow2 (-1 - e) <= pow2 (-2))%Qc by (apply pow2_le; lia). assert (pow2 (-2) < qhalf)%Qc by (vm_compute; reflexivity).
    assert (r < m + 1) by (apply qz_lt; rewrite qz_add; qlra). assert (m - 1 < r) by (apply qz_lt; rewrite qz_sub; qlra). lia.
Qed.
