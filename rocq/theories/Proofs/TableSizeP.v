(** Facts about the tables of activations (Spec/Firmware.v) and their sizes. *)
From Coq Require Import ZArith Qcanon List Bool String Lia.
From Verif Require Import Base.Num Base.NumFacts Base.Tensor Model.FixedPoint Model.Precision Model.Lut Spec.Fixed Spec.Precision Spec.NetEval Spec.Firmware.
From Verif Require Import Proofs.FixedPointP Proofs.PrecisionP Proofs.ConfigP.
Import ListNotations.
Open Scope Z_scope.

Section Table.
  Variable (h f : Z).
  Hypothesis (Hh : 0 <= h) (Hf : - h <= f).
  Let half := 2 ^ h.
  Let size := 2 ^ (h + 1 + f).

  Lemma size_half : size / 2 = 2 ^ (h + f) /\ size = 2 * 2 ^ (h + f) /\ 0 < 2 ^ (h + f).
  Proof.
    assert (E : size = 2 * 2 ^ (h + f)) by (unfold size; replace (h + 1 + f) with (Z.succ (h + f)) by lia; apply Z.pow_succ_r; lia).
    split; [rewrite E, Z.mul_comm; apply Z.div_mul; lia|]. split; [exact E|apply Z.pow_pos_nonneg; lia].
  Qed.
  Lemma position x : (x * qz size / qz (2 * half))%Qc = (x * pow2 f)%Qc.
  Proof.
    unfold size, half. replace (2 * 2 ^ h) with (2 ^ (h + 1)) by (rewrite Z.pow_add_r by lia; lia). rewrite <- !pow2_Z by lia.
    replace (pow2 (h + 1 + f)) with (pow2 f * pow2 (h + 1))%Qc by (rewrite <- pow2_add; f_equal; lia). field. apply pow2_nz.
  Qed.
  Lemma point j : table_point half size j = (qz j * pow2 (- f) - pow2 h)%Qc.
  Proof.
    unfold table_point, size, half. rewrite qz_mul. replace (2 * 2 ^ h) with (2 ^ (h + 1)) by (rewrite Z.pow_add_r by lia; lia). rewrite <- !pow2_Z by lia. f_equal.
    replace (pow2 (h + 1)) with (pow2 (- f) * pow2 (h + 1 + f))%Qc by (rewrite <- pow2_add; f_equal; lia). field. apply pow2_nz.
  Qed.
  Lemma middle : (qz (2 ^ (h + f)) * pow2 (- f))%Qc = pow2 h.
  Proof. rewrite <- pow2_Z by lia. rewrite <- pow2_add. f_equal. lia. Qed.

  Lemma tabulated_exact x : on_grid f x -> (- pow2 h <= x)%Qc -> (x < pow2 h)%Qc -> tabulated half size x = x.
  Proof.
    intros [m E] L U. destruct size_half as (S2 & S1 & P). unfold tabulated, table_index. rewrite position, S2.
    assert (EX : (x * pow2 f)%Qc = qz m) by (rewrite E; replace (qz m * pow2 (- f) * pow2 f)%Qc with (qz m * (pow2 (- f) * pow2 f))%Qc by ring; rewrite pow2_opp_l; change (qz 1) with 1%Qc; ring).
    rewrite EX, qfloor_qz.
    assert (M1 : - 2 ^ (h + f) <= m).
    { apply qz_le. rewrite <- EX, qz_opp, <- pow2_Z by lia. rewrite pow2_add. replace (- (pow2 h * pow2 f))%Qc with (- pow2 h * pow2 f)%Qc by ring. apply qmul_le_r; [|exact L]. pose proof (pow2_pos f). qlra. }
    assert (M2 : m < 2 ^ (h + f)).
    { apply qz_lt. rewrite <- EX, <- pow2_Z by lia. rewrite pow2_add. apply qmul_lt_r; [apply pow2_pos|exact U]. }
    replace (Z.max 0 (Z.min (size - 1) (m + 2 ^ (h + f)))) with (m + 2 ^ (h + f)) by lia. rewrite point, qz_add, E.
    replace ((qz m + qz (2 ^ (h + f))) * pow2 (- f))%Qc with (qz m * pow2 (- f) + qz (2 ^ (h + f)) * pow2 (- f))%Qc by ring. rewrite middle. ring.
  Qed.
  Lemma tabulated_low x : (x < - pow2 h)%Qc -> tabulated half size x = (- pow2 h)%Qc.
  Proof.
    intros L. destruct size_half as (S2 & S1 & P). unfold tabulated, table_index. rewrite position, S2.
    assert (F : qfloor (x * pow2 f)%Qc < - 2 ^ (h + f)).
    { apply qfloor_lt_iff. rewrite qz_opp, <- pow2_Z by lia. rewrite pow2_add. replace (- (pow2 h * pow2 f))%Qc with (- pow2 h * pow2 f)%Qc by ring. apply qmul_lt_r; [apply pow2_pos|exact L]. }
    replace (Z.max 0 (Z.min (size - 1) (qfloor (x * pow2 f)%Qc + 2 ^ (h + f)))) with 0 by lia. rewrite point. change (qz 0) with 0%Qc. ring.
  Qed.
  Lemma tabulated_high x : (pow2 h <= x)%Qc -> tabulated half size x = (pow2 h - pow2 (- f))%Qc.
  Proof.
    intros L. destruct size_half as (S2 & S1 & P). unfold tabulated, table_index. rewrite position, S2.
    assert (F : 2 ^ (h + f) <= qfloor (x * pow2 f)%Qc).
    { apply qfloor_ge. rewrite <- pow2_Z by lia. rewrite pow2_add. apply qmul_le_r; [|exact L]. pose proof (pow2_pos f). qlra. }
    replace (Z.max 0 (Z.min (size - 1) (qfloor (x * pow2 f)%Qc + 2 ^ (h + f)))) with (size - 1) by lia. rewrite point, S1, qz_sub, qz_mul.
    replace ((qz 2 * qz (2 ^ (h + f)) - qz 1) * pow2 (- f))%Qc with (qz 2 * (qz (2 ^ (h + f)) * pow2 (- f)) - qz 1 * pow2 (- f))%Qc by ring. rewrite middle. change (qz 1) with 1%Qc.
    change (qz 2) with (1 + 1)%Qc. ring.
  Qed.
End Table.

Lemma table_size_pow c f : 0 <= c -> - c <= f -> qfloor (qz (2 ^ c) * pow2 f)%Qc = 2 ^ (c + f).
Proof. intros Hc Hf. rewrite <- pow2_Z by lia. rewrite <- pow2_add, pow2_Z by lia. apply qfloor_qz. Qed.
Lemma table_size_none c f : 0 <= c -> f < - c -> qfloor (qz (2 ^ c) * pow2 f)%Qc = 0.
Proof.
  intros Hc Hf. rewrite <- pow2_Z by lia. rewrite <- pow2_add. apply qfloor_unique.
  - pose proof (pow2_pos (c + f)). qlra.
  - pose proof (pow2_lt (c + f) 0 ltac:(lia)) as L. rewrite pow2_0 in L. change (qz 0) with 0%Qc. replace (0 + qz 1)%Qc with (qz 1) by ring. exact L.
Qed.

(** The configuration of an activation with one input. *)
Lemma config_size fuel net n s offset a func p types size s' r s1 k i f s2 :
  nth_error net n = Some (NAct a func, [p]) -> layer_config fuel net n s offset = Ok ((types, size), s') ->
  result_kifRS fuel net n s = Ok (r, s1) -> produced fuel net p s1 = Ok ((k, i, f), s2) ->
  0 <= k + i + f /\ size = Some (match a with ATanh => qfloor (qz 8 * pow2 f)%Qc | ASigmoid => qfloor (qz 16 * pow2 f)%Qc | _ => 2 ^ (k + i + f) end).
Proof.
  intros En H HR HP. unfold layer_config in H. rewrite En in H. unfold config_table in H. rewrite HR in H. cbn [rbind fst snd] in H.
  assert (HI : input_kifs fuel net [p] s1 = Ok ([(k, i, f)], s2)) by (cbn [input_kifs]; rewrite HP; reflexivity). rewrite HI in H. cbn [rbind fst snd] in H.
  cbn [kifs_max fold_left rbind] in H.
  destruct (Z.ltb_spec (k + i + f) 0) as [L|L]; [discriminate|]. cbn [rbind] in H. destruct (check_types _) as [[]|]; cbn [rbind] in H; [|discriminate].
  apply okpair in H as [H _]. pose proof (f_equal snd H) as HT. cbn [snd] in HT. split; [lia|]. rewrite <- HT. destruct a; reflexivity.
Qed.

Lemma qmul_inj_r c a b : c <> 0%Qc -> (a * c = b * c)%Qc -> a = b.
Proof. intros C E. replace a with (a * c / c)%Qc by (field; exact C). rewrite E. field. exact C. Qed.

(** The values of a format. *)
Lemma all_values k i f : k = 0 \/ k = 1 -> 0 <= k + i + f -> exists l, NoDup l /\ (forall x, In x l <-> fits k i f x) /\ Z.of_nat (List.length l) = 2 ^ (k + i + f).
Proof.
  intros Hk W. set (N := 2 ^ (k + i + f)). assert (PN : 0 < N) by (apply Z.pow_pos_nonneg; lia).
  set (lo := if Z.eqb k 0 then 0 else - (N / 2)).
  exists (map (fun j => qz (lo + Z.of_nat j) * pow2 (- f))%Qc (seq 0 (Z.to_nat N))).
  assert (INJ : forall a b, (qz a * pow2 (- f))%Qc = (qz b * pow2 (- f))%Qc -> a = b).
  { intros a b E. apply qz_inj. apply (qmul_inj_r (pow2 (- f))); [apply pow2_nz|exact E]. }
  assert (RANGE : forall m, lo <= m < lo + N <-> (- (qz k * pow2 i) <= qz m * pow2 (- f))%Qc /\ (qz m * pow2 (- f) < pow2 i)%Qc).
  { intros m. assert (PI : pow2 i = (pow2 (i + f) * pow2 (- f))%Qc) by (rewrite <- pow2_add; f_equal; lia). pose proof (pow2_pos (- f)) as PF.
    assert (PE : 0 <= i + f -> 2 ^ (i + f) = (if Z.eqb k 0 then N else N / 2)).
    { intros P. unfold N. destruct Hk as [-> | ->]; [reflexivity|]. cbn [Z.eqb]. replace (1 + i + f) with (Z.succ (i + f)) by lia. rewrite Z.pow_succ_r by lia. rewrite Z.mul_comm, Z.div_mul by lia. reflexivity. }
    split.
    - intros [A B]. rewrite PI. destruct (Z.le_gt_cases 0 (i + f)) as [P|P].
      + specialize (PE P). rewrite (pow2_Z (i + f)) by exact P. rewrite PE. unfold lo in *. destruct Hk as [-> | ->]; cbn [Z.eqb] in *.
        * split; [replace (- (qz 0 * (qz N * pow2 (- f))))%Qc with (qz 0 * pow2 (- f))%Qc by (change (qz 0) with 0%Qc; ring); apply qmul_le_r; [qlra|apply qz_le; lia]|apply qmul_lt_r; [exact PF|apply qz_lt; lia]].
        * assert (EN : N = 2 * (N / 2)) by (rewrite <- PE; unfold N; replace (1 + i + f) with (Z.succ (i + f)) by lia; apply Z.pow_succ_r; lia).
          split; [replace (- (qz 1 * (qz (N / 2) * pow2 (- f))))%Qc with (qz (- (N / 2)) * pow2 (- f))%Qc by (rewrite qz_opp; change (qz 1) with 1%Qc; ring); apply qmul_le_r; [qlra|apply qz_le; lia]|apply qmul_lt_r; [exact PF|apply qz_lt; lia]].
      + destruct Hk as [-> | ->]; [lia|]. assert (N1 : N = 1) by (unfold N; replace (1 + i + f) with 0 by lia; reflexivity). unfold lo in A, B. rewrite N1 in A, B. cbn in A, B. assert (m = 0) by lia. subst m.
        pose proof (pow2_pos (i + f)) as PP. assert (X : (0 < pow2 (i + f) * pow2 (- f))%Qc) by (rewrite <- PI; apply pow2_pos). replace (qz 0 * pow2 (- f))%Qc with 0%Qc by (change (qz 0) with 0%Qc; ring).
        replace (qz 1 * (pow2 (i + f) * pow2 (- f)))%Qc with (pow2 (i + f) * pow2 (- f))%Qc by (change (qz 1) with 1%Qc; ring). split; [qlra|exact X].
    - intros [A B]. rewrite PI in A, B. apply qmul_lt_r_inv in B; [|exact PF]. replace (- (qz k * (pow2 (i + f) * pow2 (- f))))%Qc with (- (qz k * pow2 (i + f)) * pow2 (- f))%Qc in A by ring. apply qmul_le_r_inv in A; [|exact PF].
      destruct (Z.le_gt_cases 0 (i + f)) as [P|P].
      + specialize (PE P). rewrite (pow2_Z (i + f)) in A, B by exact P. rewrite <- qz_mul, <- qz_opp in A. apply (proj1 (qz_le _ _)) in A. apply (proj1 (qz_lt _ _)) in B. rewrite PE in A, B. unfold lo. destruct Hk as [-> | ->]; cbn [Z.eqb] in A, B, PE |- *; [lia|].
        assert (EN : N = 2 * (N / 2)) by (rewrite <- PE; unfold N; replace (1 + i + f) with (Z.succ (i + f)) by lia; apply Z.pow_succ_r; lia). lia.
      + destruct Hk as [-> | ->]; [lia|]. assert (N1 : N = 1) by (unfold N; replace (1 + i + f) with 0 by lia; reflexivity). unfold lo. rewrite N1. cbn.
        assert (PH : (pow2 (i + f) <= qhalf)%Qc) by (replace (i + f) with (0 - 1) by lia; rewrite pow2_pred, pow2_0; qlra).
        assert (M0 : (qz (-1) < qz m)%Qc) by (replace (qz 1 * pow2 (i + f))%Qc with (pow2 (i + f)) in A by (change (qz 1) with 1%Qc; ring); qlra).
        assert (M1 : (qz m < qz 1)%Qc) by qlra. apply (proj1 (qz_lt _ _)) in M0, M1. lia. }
  split; [|split].
  - apply FinFun.Injective_map_NoDup; [|apply seq_NoDup]. intros a b E. apply INJ in E. lia.
  - intros x. rewrite in_map_iff. split.
    + intros (j & <- & I). apply in_seq in I. split; [exists (lo + Z.of_nat j); reflexivity|]. apply RANGE. lia.
    + intros ([m ->] & A & B). assert (R : lo <= m < lo + N) by (apply RANGE; split; assumption). exists (Z.to_nat (m - lo)). split; [do 2 f_equal; lia|]. apply in_seq. lia.
  - rewrite map_length, seq_length. lia.
Qed.
