(** C58: the quantizers evaluated in IEEE single precision. *)
From Coq Require Import ZArith QArith Qcanon Bool Lia String.
From Verif Require Import Base.Num Base.NumFacts Model.FixedPoint Model.Float32 Spec.Fixed Spec.Float
  Proofs.FixedPointP Proofs.Float32P Proofs.Float32Q.
Local Open Scope Z_scope.

(** The rounding used below is that of IEEE 754: the nearest float, and on a tie the one with the
    even significand. *)
Theorem C58_rounding_is_ieee : forall x, (qabs x < pow2 127)%Qc ->
  nearest32 x (rn32 x) /\ forall z, float32 z -> z <> rn32 x -> qabs (x - z) = qabs (x - rn32 x) -> even32 (rn32 x).
Proof.
  intros x B. split; [split; [apply rn32_float; exact B|intros z Hz; apply rn32_dist; exact Hz]|].
  intros z Hz Nz D. exact (rn32_tie x z B Hz Nz D).
Qed.
Print Assumptions C58_rounding_is_ieee.

(** 1/3 is rounded up to 11184811 * 2^-25, the tie 2^24 + 1 down to 2^24. *)
Example C58_rounding_is_ieee_ex : rn32 (qz 1 / qz 3) = (qz 11184811 * pow2 (-25))%Qc /\ rn32 (qz (2 ^ 24 + 1)) = qz (2 ^ 24) /\
  (qabs (qz 1 / qz 3) < pow2 127)%Qc.
Proof. split; [|split]; [apply Qc_is_canon; vm_compute; reflexivity|apply Qc_is_canon; vm_compute; reflexivity|vm_compute; reflexivity]. Qed.

Lemma floor_half_rounds s : rounds_to "RND" s (qfloor (s + qhalf)).
Proof.
  pose proof (qfloor_le (s + qhalf)) as L. pose proof (qfloor_lt (s + qhalf)) as U. set (r := qfloor (s + qhalf)) in *.
  right. right. left. split; [reflexivity|]. split; [split; qlra|]. intros [m ->].
  assert (Er : r = m + 1). { unfold r. apply qfloor_unique; rewrite qz_add; qlra. }
  rewrite Er, qz_add. qlra.
Qed.

(** C58: for every float x and every number n of fractional bits, the forward pass at inference returns
    the exact nearest multiple of 2^-n, ties up, unless the scaled value is one of the exceptions. *)
Theorem C58_standard_round : forall n x, float32 x -> -100 <= n <= 100 -> (qabs (x * pow2 n) < pow2 100)%Qc ->
  ~ half_exception (x * pow2 n)%Qc ->
  exists r, rounds_to "RND" (x * pow2 n)%Qc r /\ forward32 false n x = (qz r * pow2 (- n))%Qc.
Proof.
  intros n x Hx Hn Hb N. exists (qfloor (x * pow2 n + qhalf)). split; [apply floor_half_rounds|]. apply forward_round; try assumption; try lia.
  - intros E. apply N. left. exact E.
  - intros E. apply N. right. exact E.
Qed.
Print Assumptions C58_standard_round.

(** C58: on the exceptions the result is one step too high, exactly. *)
Theorem C58_standard_round_exceptions : forall n x, float32 x -> -100 <= n <= 100 -> half_exception (x * pow2 n)%Qc ->
  exists r, rounds_to "RND" (x * pow2 n)%Qc r /\ forward32 false n x = (qz (r + 1) * pow2 (- n))%Qc.
Proof.
  intros n x Hx Hn H. exists (qfloor (x * pow2 n + qhalf)). split; [apply floor_half_rounds|]. destruct H as [E|[k [E [O B]]]].
  - rewrite (forward_pred n x Hx Hn E), E. replace (qfloor (qhalf - pow2 (-25) + qhalf)) with 0 by (vm_compute; reflexivity). change (0 + 1) with 1. rewrite qz1. ring.
  - rewrite (forward_odd n x k Hx) by (assumption || lia). rewrite E. do 3 f_equal. symmetry. apply qfloor_unique; qlra.
Qed.
Print Assumptions C58_standard_round_exceptions.

(** Exceptional inputs exist: the float just below 1/2 becomes 1, and 2^23 + 1 becomes 2^23 + 2. *)
Theorem C58_exact_round_refuted : exists x y, float32 x /\ float32 y /\
  forward32 false 0 x = qz 1 /\ rounds_to "RND" x 0 /\ forward32 false 0 y = qz (2 ^ 23 + 2) /\ y = qz (2 ^ 23 + 1).
Proof.
  exists (qhalf - pow2 (-25))%Qc, (qz (2 ^ 23 + 1)). split; [|split; [|split; [|split; [|split]]]].
  - replace (qhalf - pow2 (-25))%Qc with (qz (2 ^ 24 - 1) * pow2 (-25))%Qc by (apply Qc_is_canon; vm_compute; reflexivity). apply float_grid; lia.
  - apply float_qz. lia.
  - apply Qc_is_canon; vm_compute; reflexivity.
  - replace 0 with (qfloor (qhalf - pow2 (-25) + qhalf)) by (vm_compute; reflexivity). apply floor_half_rounds.
  - apply Qc_is_canon; vm_compute; reflexivity.
  - reflexivity.
Qed.
Print Assumptions C58_exact_round_refuted.

(** 0.3 in float32 with 4 fractional bits: 5/16. *)
Example C58_standard_round_ex : let x := rn32 (qz 3 / qz 10) in
  float32 x /\ (qabs (x * pow2 4) < pow2 100)%Qc /\ ~ half_exception (x * pow2 4)%Qc /\ forward32 false 4 x = (qz 5 * pow2 (-4))%Qc.
Proof.
  cbv zeta. split; [|split; [|split]].
  - apply rn32_float. vm_compute. reflexivity.
  - vm_compute. reflexivity.
  - intros [E|[k [E _]]]; [apply (f_equal this) in E; vm_compute in E; discriminate|].
    assert (F : qfloor (rn32 (qz 3 / qz 10) * pow2 4) = k) by (rewrite E; apply qfloor_qz).
    replace (qfloor (rn32 (qz 3 / qz 10) * pow2 4)) with 4 in F by (vm_compute; reflexivity). subst k. apply (f_equal this) in E. vm_compute in E. discriminate.
  - apply Qc_is_canon; vm_compute; reflexivity.
Qed.

(** C58: with the floor strategy the result is exact for every float whose scaling is one. *)
Theorem C58_floor : forall n x, float32 x -> float32 (x * pow2 n)%Qc -> -100 <= n <= 100 ->
  exists r, rounds_to "TRN" (x * pow2 n)%Qc r /\ forward32 true n x = (qz r * pow2 (- n))%Qc.
Proof.
  intros n x Hx Hs Hn. exists (qfloor (x * pow2 n)). split; [left; split; [reflexivity|split; [apply qfloor_le|apply qfloor_lt]]|].
  apply forward_floor; assumption.
Qed.
Print Assumptions C58_floor.

(** A tiny negative value, not representable relative to the step -1, is still floored to -1. *)
Example C58_floor_ex : float32 (qz (-1) * pow2 (-40))%Qc /\ float32 (qz (-1) * pow2 (-40) * pow2 2)%Qc /\
  forward32 true 2 (qz (-1) * pow2 (-40)) = (qz (-1) * pow2 (-2))%Qc.
Proof.
  split; [apply float_grid; lia|split; [rewrite <- Qcmult_assoc, <- pow2_add; apply float_grid; lia|apply Qc_is_canon; vm_compute; reflexivity]].
Qed.

(** Without that hypothesis a negative subnormal is floored to zero. *)
Theorem C58_floor_underflow_refuted : exists n x, float32 x /\ -100 <= n <= 100 /\ rounds_to "TRN" (x * pow2 n)%Qc (-1) /\ forward32 true n x = qz 0.
Proof.
  exists (-1), (qz (-1) * pow2 (-149))%Qc. split; [apply float_grid; lia|split; [lia|split]].
  - left. split; [reflexivity|]. split; [vm_compute; intros; discriminate|vm_compute; reflexivity].
  - apply Qc_is_canon; vm_compute; reflexivity.
Qed.
Print Assumptions C58_floor_underflow_refuted.

(** C58: in training mode the gradient terms are added and subtracted in float32, and the value
    returned need not be a quantization step: with one fractional bit, 5/32 gives -2^-26. *)
Theorem C58_training_refuted : exists f x, float32 f /\ float32 x /\
  let ln2 := (qz 11629080 * pow2 (-24))%Qc in
  rounds_to "RND" (x * pow2 (qround_even f))%Qc 0 /\ forward32 false (qround_even f) x = qz 0 /\
  forward32_train false ln2 f x = (qz (-1) * pow2 (-26))%Qc.
Proof.
  exists (qz 1), (qz 5 * pow2 (-5))%Qc. split; [apply float_qz; lia|split; [apply float_grid; lia|cbv zeta; split; [|split]]].
  - replace 0 with (qfloor (qz 5 * pow2 (-5) * pow2 (qround_even (qz 1)) + qhalf)) by (vm_compute; reflexivity). apply floor_half_rounds.
  - apply Qc_is_canon; vm_compute; reflexivity.
  - apply Qc_is_canon; vm_compute; reflexivity.
Qed.
Print Assumptions C58_training_refuted.

Lemma code_range k b m : 0 <= k <= 1 -> k <= b -> code k b m -> - (k * 2 ^ (b - k)) <= m <= 2 ^ (b - k) - 1.
Proof. intros Hk Hb [[-> H]|[-> H]]; [rewrite Z.sub_0_r|]; lia. Qed.

Lemma code_float k b m : 0 <= k <= 1 -> k <= b <= 24 -> code k b m -> - 2 ^ 24 <= m <= 2 ^ 24.
Proof.
  intros Hk Hb H. apply code_range in H; [|exact Hk|lia].
  assert (0 < 2 ^ (b - k) <= 2 ^ 24) by (split; [apply Z.pow_pos_nonneg; lia|apply Z.pow_le_mono_r; lia]). nia.
Qed.

(** C58: the proxy quantizer in float32 returns exactly what the HGQ quantizer returns in float32
    (the exceptions included) whenever that value belongs to the proxy's format, saturating up to 24
    bits and wrapping up to 23. *)
Theorem C58_proxy_same : forall k b i x, float32 x -> 0 <= k <= 1 -> 1 <= b <= 24 -> -100 <= b - i <= 100 ->
  (qabs (x * pow2 (b - i)) < pow2 100)%Qc -> representable k b i (forward32 false (b - i) x) ->
  gfixed32 RND32 SAT32 k b i x = forward32 false (b - i) x /\
  (b <= 23 -> gfixed32 RND32 WRAP32 k b i x = forward32 false (b - i) x).
Proof.
  intros k b i x Hx Hk Hb Hn B [m [C E]]. rewrite (forward_step (b - i) x Hx Hn B) in *.
  assert (Em : q_round32 false (rn32 (x * pow2 (b - i))) = m).
  { replace (- (b - i)) with (i - b) in E by lia. apply pow2_mul_cancel_eq in E. apply qz_inj in E. exact E. }
  rewrite Em. assert (ER : RND32 (rn32 (x * pow2 (b - i))) = qz m) by (unfold RND32; f_equal; exact Em).
  pose proof (code_range k b m Hk ltac:(lia) C) as Cr. pose proof (code_float k b m Hk ltac:(lia) C) as Cf.
  assert (Fin : (rn32 (qz m / pow2 (b - i)) * (if b =? 0 then qz 0 else qz 1))%Qc = (qz m * pow2 (- (b - i)))%Qc).
  { destruct (Z.eqb_spec b 0); [lia|]. rewrite div_pow2, rn32_id by (apply float_grid; lia). rewrite qz1. ring. }
  split; [|intros Hb']; unfold gfixed32; cbv zeta; rewrite ER.
  - rewrite SAT32_exact, SAT_qz by lia. rewrite Z.min_l by (unfold hi; lia). rewrite Z.max_l by (unfold lo; lia). exact Fin.
  - assert (2 ^ (b - k) <= 2 ^ 23) by (apply Z.pow_le_mono_r; lia). assert (0 < 2 ^ (b - k)) by (apply Z.pow_pos_nonneg; lia).
    rewrite WRAP32_exact, WRAP_qz by nia. rewrite Z.mod_small; [replace (m - lo k b + lo k b) with m by lia; exact Fin|].
    unfold lo. destruct C as [[-> C]|[-> C]].
    + lia.
    + replace (2 ^ b) with (2 * 2 ^ (b - 1)) by (rewrite <- Z.pow_succ_r by lia; f_equal; lia). lia.
Qed.
Print Assumptions C58_proxy_same.

(** fixed<8,3> and the float nearest to -1.3: both give -42/32. *)
Example C58_proxy_same_ex : let x := rn32 (qz (-13) / qz 10) in float32 x /\ representable 1 8 3 (forward32 false 5 x) /\
  gfixed32 RND32 WRAP32 1 8 3 x = (qz (-42) * pow2 (-5))%Qc.
Proof.
  cbv zeta. split; [apply rn32_float; vm_compute; reflexivity|split].
  - exists (-42). split; [right; split; [reflexivity|lia]|]. apply Qc_is_canon; vm_compute; reflexivity.
  - apply Qc_is_canon; vm_compute; reflexivity.
Qed.

(** C58: outside the range of the format too, the float32 proxy computes the exact quantizer. *)
Theorem C58_proxy_exact : forall k b i x, float32 x -> 0 <= k <= 1 -> 1 <= b <= 24 -> -100 <= b - i <= 100 ->
  (qabs (x * pow2 (b - i)) < pow2 100)%Qc -> ~ half_exception (x * pow2 (b - i))%Qc ->
  gfixed_quantizer x k b i "RND" "SAT" = Ok (gfixed32 RND32 SAT32 k b i x) /\
  (b <= 23 -> (qabs (x * pow2 (b - i)) < pow2 22)%Qc -> gfixed_quantizer x k b i "RND" "WRAP" = Ok (gfixed32 RND32 WRAP32 k b i x)).
Proof.
  intros k b i x Hx Hk Hb Hn B N.
  assert (Em : RND32 (rn32 (x * pow2 (b - i))) = RND (x * pow2 (b - i))).
  { unfold RND32, RND. f_equal. destruct (qltb_spec (qabs (x * pow2 (b - i))) (pow2 (-2))) as [T|T].
    - pose proof (tiny_round _ _ T) as E. unfold q_round32 in E. rewrite E. symmetry. apply qabs_lt_iff in T. assert (pow2 (-2) < qhalf)%Qc by (vm_compute; reflexivity). apply qfloor_unique; qlra.
    - pose proof (float_scale x (b - i) Hx B T) as Hs. rewrite (rn32_id _ Hs). apply floor_half; [exact Hs| |]; intros C; apply N; [left|right]; exact C. }
  assert (P : 0 < 2 ^ (b - k) <= 2 ^ 24) by (split; [apply Z.pow_pos_nonneg; lia|apply Z.pow_le_mono_r; lia]).
  assert (Fin : forall m, - 2 ^ 24 <= m <= 2 ^ 24 -> rn32 (qz m / pow2 (b - i)) = (qz m / pow2 (b - i))%Qc).
  { intros m Hm. rewrite div_pow2. apply rn32_id, float_grid; lia. }
  split; [|intros Hb' B']; unfold gfixed_quantizer, RND_MAP, SAT_MAP; cbn [String.eqb Ascii.eqb Bool.eqb]; f_equal; unfold gfixed32, gfixed_elem; cbv zeta; rewrite Em.
  - rewrite SAT32_exact by lia. unfold RND. rewrite SAT_qz by lia. rewrite Fin; [reflexivity|]. unfold hi, lo. nia.
  - unfold RND. set (r := qfloor (x * pow2 (b - i) + qhalf)).
    assert (Hr : - 2 ^ 23 <= r <= 2 ^ 23).
    { rewrite (pow2_Z 22) in B' by lia. apply qabs_lt_iff in B'. pose proof (qfloor_le (x * pow2 (b - i) + qhalf)) as L. pose proof (qfloor_lt (x * pow2 (b - i) + qhalf)) as U. fold r in L, U.
      assert (qz (2 ^ 22) + qz (2 ^ 22) = qz (2 ^ 23))%Qc by (rewrite <- qz_add; reflexivity). assert (qz 1 <= qz (2 ^ 22))%Qc by (apply qz_le; lia).
      split; apply qz_le; rewrite ?qz_opp; qlra. }
    rewrite WRAP32_exact, WRAP_qz by lia. rewrite Fin; [reflexivity|].
    pose proof (Z.mod_pos_bound (r - lo k b) (2 ^ b) ltac:(apply Z.pow_pos_nonneg; lia)) as Mb.
    assert (2 ^ b <= 2 ^ 23) by (apply Z.pow_le_mono_r; lia). unfold lo in *. nia.
Qed.
Print Assumptions C58_proxy_exact.

(** fixed<4,2> and 3.3 wraps to -0.75 in float32. *)
Example C58_proxy_exact_ex : let x := rn32 (qz 33 / qz 10) in float32 x /\ ~ half_exception (x * pow2 2)%Qc /\
  gfixed32 RND32 WRAP32 1 4 2 x = (qz (-3) * pow2 (-2))%Qc.
Proof.
  cbv zeta. split; [apply rn32_float; vm_compute; reflexivity|split].
  - intros [E|[k [E _]]]; [apply (f_equal this) in E; vm_compute in E; discriminate|].
    assert (F : qfloor (rn32 (qz 33 / qz 10) * pow2 2) = k) by (rewrite E; apply qfloor_qz).
    replace (qfloor (rn32 (qz 33 / qz 10) * pow2 2)) with 13 in F by (vm_compute; reflexivity). subst k. apply (f_equal this) in E. vm_compute in E. discriminate.
  - apply Qc_is_canon; vm_compute; reflexivity.
Qed.

(** C58: a wide wrapping format is not faithful in float32: a 27-bit signed integer type turns 1
    into 0, though 1 is representable in it and the exact quantizer keeps it. *)
Theorem C58_wide_wrap_refuted : representable 1 27 27 (qz 1) /\ forward32 false 0 (qz 1) = qz 1 /\
  gfixed_quantizer (qz 1) 1 27 27 "RND" "WRAP" = Ok (qz 1) /\ gfixed32 RND32 WRAP32 1 27 27 (qz 1) = qz 0.
Proof.
  split; [|split; [|split]].
  - exists 1. split; [right; split; [reflexivity|lia]|]. apply Qc_is_canon; vm_compute; reflexivity.
  - apply Qc_is_canon; vm_compute; reflexivity.
  - unfold gfixed_quantizer, RND_MAP, SAT_MAP. cbn [String.eqb Ascii.eqb Bool.eqb]. apply f_equal. apply Qc_is_canon; vm_compute; reflexivity.
  - apply Qc_is_canon; vm_compute; reflexivity.
Qed.
Print Assumptions C58_wide_wrap_refuted.
