(** Properties C11-C16, C24, C26, C27: the HGQ quantizer (src/HGQ/quantizer/quantizer.py). *)
From Coq Require Import ZArith QArith Qcanon List Bool String Lia.
From Verif Require Import Base.Num Base.NumFacts Base.Tensor Base.Compute Model.FixedPoint Model.Quantizer
  Spec.Fixed Spec.Quant Spec.History Proofs.TensorP Proofs.QuantizerP Proofs.RecordP Proofs.HistoryP Proofs.ShapeP Proofs.CallP.
Import ListNotations.
Local Open Scope string_scope.
Local Open Scope Z_scope.

(** C11: one value. *)
Theorem C11_inference_grid_and_error : forall pw ln2 strategy exact noise f x r, nearest_even f r ->
  exists y, forward_elem pw ln2 strategy exact false noise f x = Ok y /\
    (strategy = 3 -> floor_on_grid r x y) /\ (strategy <> 3 -> round_on_grid r x y).
Proof. exact inference_spec. Qed.
Print Assumptions C11_inference_grid_and_error.

(** C11: the tensor level; the bitwidth of position p is that of its group p mod (number of groups). *)
Theorem C11_inference_tensor : forall pw ln2 m pre rest q x record noise y q',
  length pre = m -> shape x = (pre ++ rest)%list -> reg_ok m rest (q_fbw q) ->
  call pw ln2 q x false record noise = Ok (y, q') ->
  shape y = shape x /\
  forall p r, (p < prodn (shape x))%nat ->
    nearest_even (nth (Nat.modulo p (prodn rest)) (data (q_fbw q')) (qz 0)) r ->
    (q_strategy q = 3 -> floor_on_grid r (nth p (data x) (qz 0)) (nth p (data y) (qz 0))) /\
    (q_strategy q <> 3 -> round_on_grid r (nth p (data x) (qz 0)) (nth p (data y) (qz 0))).
Proof. exact call_inference. Qed.
Print Assumptions C11_inference_tensor.

(** C11: the two specifications determine the result. *)
Theorem C11_spec_deterministic : forall r x y y',
  (floor_on_grid r x y -> floor_on_grid r x y' -> y = y') /\ (round_on_grid r x y -> round_on_grid r x y' -> y = y').
Proof. split; [apply floor_on_grid_fun|apply round_on_grid_fun]. Qed.
Print Assumptions C11_spec_deterministic.

Example C11_ex : nearest_even (Q2Qc (5 # 2)) 2 /\ forall pw ln2,
  rbind (call pw ln2 (hgq_build (mkT [1; 2]%nat [Q2Qc (5 # 2); qz (-1)]) (Some [0]) 0 true (Some (qz (-8), qz 8)))
    (mkT [2; 2]%nat [Q2Qc (3 # 8); qz 3; Q2Qc (-3 # 8); qz (-3)]) false false (fun _ => qz 0)) (fun r => Ok (fst r))
  = Ok (mkT [2; 2]%nat [Q2Qc (1 # 2); qz 4; Q2Qc (-1 # 4); qz (-2)]).
Proof.
  split; [|qvm]. split; [split; vm_compute; discriminate|]. intros _. exists 1. reflexivity.
Qed.

(** C12: deterministic: no dependence on the draws, nor on pow/ln 2 of the training path. *)
Theorem C12_inference_ignores_draws : forall pw ln2 pw' ln2' q x record noise noise',
  call pw ln2 q x false record noise = call pw' ln2' q x false record noise'.
Proof. intros. unfold call. apply forward_noise. Qed.
Print Assumptions C12_inference_ignores_draws.

Theorem C12_inference_idempotent : forall pw ln2 m pre rest q x record noise noise' y q' z q'',
  (match q_clip q with Some (lo, hi) => (lo <= hi)%Qc | None => True end) ->
  length pre = m -> shape x = (pre ++ rest)%list -> reg_ok m rest (q_fbw q) ->
  call pw ln2 q x false record noise = Ok (y, q') -> call pw ln2 q' y false record noise' = Ok (z, q'') -> z = y.
Proof. exact call_idem. Qed.
Print Assumptions C12_inference_idempotent.

Theorem C12_inference_monotone : forall pw ln2 strategy exact noise noise' f x x' y y', (x <= x')%Qc ->
  forward_elem pw ln2 strategy exact false noise f x = Ok y ->
  forward_elem pw ln2 strategy exact false noise' f x' = Ok y' -> (y <= y')%Qc.
Proof. exact inference_mono. Qed.
Print Assumptions C12_inference_monotone.

(** C12: whereas a training call of the stochastic strategy does depend on the draw. *)
Example C12_ex : forall pw ln2,
  forward_elem pw ln2 1 true false (qz 0) (qz 2) (Q2Qc (5 # 16)) = Ok (Q2Qc (1 # 4)) /\
  forward_elem pw ln2 1 true false (qz 0) (qz 2) (Q2Qc (1 # 4)) = Ok (Q2Qc (1 # 4)) /\
  forward_elem pw (qz 0) 1 true true (qz 0) (qz 2) (Q2Qc (5 # 16)) = Ok (Q2Qc (1 # 2)) /\
  forward_elem pw (qz 0) 1 true true qhalf (qz 2) (Q2Qc (5 # 16)) = Ok (Q2Qc (1 # 4)).
Proof. qvm. Qed.

(** C13 *)
Theorem C13_unknown_strategy_raises : forall x s noise, q_round x s noise = Raise <-> ~ (0 <= s <= 3).
Proof. exact q_round_raise. Qed.
Print Assumptions C13_unknown_strategy_raises.

Theorem C13_stochastic_envelope : forall x noise y, (qz 0 <= noise)%Qc -> (noise < qz 1)%Qc ->
  q_round x 1 noise = Ok y ->
  exists n, y = qz n /\ (y < x + qz 1)%Qc /\ (x - qz 1 < y)%Qc /\ (forall m, x = qz m -> y = x).
Proof. exact stochastic_spec. Qed.
Print Assumptions C13_stochastic_envelope.

(** C13: the value is rounded up exactly for the draws below its fractional part (so with that probability). *)
Theorem C13_stochastic_up_probability : forall x noise y, (qz 0 <= noise)%Qc -> (noise < qz 1)%Qc ->
  q_round x 1 noise = Ok y -> (x < y)%Qc <-> exists n, (qz n <= x)%Qc /\ (x < qz n + qz 1)%Qc /\ (noise < x - qz n)%Qc.
Proof.
  intros x noise y H1 H2 E. rewrite (stochastic_up x noise y H1 H2 E). split.
  - intros H. exists (qfloor x). pose proof (qfloor_le x). pose proof (qfloor_lt x). auto.
  - intros [n [A [B C]]]. rewrite (qfloor_unique x n A B). assumption.
Qed.
Print Assumptions C13_stochastic_up_probability.

Theorem C13_noise_envelope : forall x noise y, (- qhalf <= noise)%Qc -> (noise <= qhalf)%Qc ->
  q_round x 2 noise = Ok y ->
  (x - qhalf <= y)%Qc /\ (y <= x + qhalf)%Qc /\ ((qabs x <= qhalf)%Qc -> y = qz 0).
Proof. exact noise_spec. Qed.
Print Assumptions C13_noise_envelope.

(** C13: an unknown strategy name is stored as -1; inference then silently uses
    round-to-nearest, and only training raises. *)
Theorem C13_unknown_name_only_raises_in_training : forall pw ln2 exact noise f x s,
  ~ In s ["standard_round"; "stochastic_round"; "fast_uniform_noise_injection"; "floor"] ->
  forward_elem pw ln2 (strategy_of_string s) exact true noise f x = Raise /\
  forward_elem pw ln2 (strategy_of_string s) exact false noise f x =
  forward_elem pw ln2 (strategy_of_string "standard_round") exact false noise f x.
Proof.
  intros pw ln2 exact noise f x s H.
  assert (E : strategy_of_string s = -1).
  { unfold strategy_of_string. 
    repeat match goal with |- context [String.eqb s ?t] =>
      destruct (String.eqb_spec s t) as [->|_]; [exfalso; apply H; cbn; auto 6|] end. reflexivity. }
  rewrite E. split; [reflexivity|]. rewrite !forward_inference. reflexivity.
Qed.
Print Assumptions C13_unknown_name_only_raises_in_training.

Example C13_ex :
  q_round (Q2Qc (-5 # 4)) 1 (Q2Qc (1 # 2)) = Ok (qz (-1)) /\ q_round (Q2Qc (-5 # 4)) 1 (Q2Qc (3 # 4)) = Ok (qz (-2)) /\
  q_round (Q2Qc (5 # 4)) 2 (Q2Qc (-1 # 4)) = Ok (qz 1) /\ q_round (Q2Qc (-1 # 2)) 2 (Q2Qc (-1 # 4)) = Ok (qz 0) /\
  q_round (qz 1) 4 (qz 0) = Raise.
Proof. qvm. Qed.

(** C14: value and both derivatives (dual numbers: [snd] is the tangent). *)
Theorem C14_training_value_and_gradients : forall pw ln2 strategy exact noise f x y,
  forward_elem pw ln2 strategy exact true noise (fst f) (fst x) = Ok y ->
  forward_elem_d pw ln2 strategy exact true noise f x =
    Ok (y, snd x - (y - fst x) * ln2 * snd f)%Qc.
Proof. intros. rewrite forward_elem_xq in H. exact (forward_d _ _ _ _ true _ _ _ _ H). Qed.
Print Assumptions C14_training_value_and_gradients.

(** C14: partial derivatives: 1 in the input, -(xq - x) ln2 in the bitwidth. *)
Theorem C14_each_derivative : forall pw ln2 strategy exact noise f x y,
  forward_elem pw ln2 strategy exact true noise f x = Ok y ->
  forward_elem_d pw ln2 strategy exact true noise (f, qz 0) (x, qz 1) = Ok (y, qz 1) /\
  forward_elem_d pw ln2 strategy exact true noise (f, qz 1) (x, qz 0) = Ok (y, - ((y - x) * ln2))%Qc.
Proof.
  intros pw ln2 strategy exact noise f x y H. rewrite forward_elem_xq in H.
  rewrite (forward_d pw ln2 strategy exact true noise (f, qz 0) (x, qz 1) y) by exact H.
  rewrite (forward_d pw ln2 strategy exact true noise (f, qz 1) (x, qz 0) y) by exact H. cbn [fst snd].
  split; f_equal; f_equal; change (qz 0) with 0%Qc; change (qz 1) with 1%Qc; ring.
Qed.
Print Assumptions C14_each_derivative.

(** C14: with exact values, the training value of the two deterministic strategies is the inference value. *)
Theorem C14_training_value_is_quantized_value : forall pw ln2 strategy noise f x, strategy = 0 \/ strategy = 3 ->
  forward_elem pw ln2 strategy true true noise f x = forward_elem pw ln2 strategy true false noise f x.
Proof. intros pw ln2 strategy noise f x [->| ->]; rewrite !forward_elem_xq; reflexivity. Qed.
Print Assumptions C14_training_value_is_quantized_value.

(** C14: the gradient w.r.t. the input at inference is 1 as well, w.r.t. the bitwidth 0. *)
Theorem C14_inference_gradients : forall pw ln2 strategy exact noise f x y,
  forward_elem pw ln2 strategy exact false noise (fst f) (fst x) = Ok y ->
  forward_elem_d pw ln2 strategy exact false noise f x = Ok (y, snd x).
Proof. intros. rewrite forward_elem_xq in H. exact (forward_d _ _ _ _ false _ _ _ _ H). Qed.
Print Assumptions C14_inference_gradients.

Example C14_ex : forall pw,
  forward_elem pw (Q2Qc (7 # 10)) 0 true true (qz 0) (qz 1) (Q2Qc (3 # 10)) = Ok (Q2Qc (1 # 2)) /\
  rbind (forward_elem_d pw (Q2Qc (7 # 10)) 0 true true (qz 0) (qz 1, qz 1) (Q2Qc (3 # 10), qz 0)) (fun d => Ok (snd d))
    = Ok (Q2Qc (-14 # 100)).
Proof. qvm. Qed.

(** C15 *)
Theorem C15_scale_grad : forall x s, scale_grad x (s, qz 0) = (fst x, (snd x * s)%Qc).
Proof. exact scale_grad_spec. Qed.
Print Assumptions C15_scale_grad.

(** C15: also when the factor itself carries a derivative, the value is unchanged. *)
Theorem C15_scale_grad_value : forall x s, fst (scale_grad x s) = fst x.
Proof. intros x s. unfold scale_grad, d_add, d_mul, stop_gradient, d_sub; cbn [fst snd]. ring. Qed.
Print Assumptions C15_scale_grad_value.

Theorem C15_regularizer_monotone : forall l1 x x' r r', Forall2 Qcle x x' ->
  MonoL1 l1 x = Ok r -> MonoL1 l1 x' = Ok r' -> (r <= r')%Qc.
Proof.
  intros l1 x x' r r' H. unfold MonoL1. destruct (qleb_spec (qz 0) l1) as [P|P]; [|discriminate].
  intros E E'. injection E as <-. injection E' as <-. apply Qcmult_le_compat_r; [apply qsum_mono; assumption|exact P].
Qed.
Print Assumptions C15_regularizer_monotone.

(** C15: a negative factor is rejected; otherwise the value is factor * sum. *)
Theorem C15_regularizer_value : forall l1 x,
  (MonoL1 l1 x = Raise <-> (l1 < qz 0)%Qc) /\ (forall r, MonoL1 l1 x = Ok r -> r = (l1 * fold_right Qcplus (qz 0) x)%Qc).
Proof.
  intros l1 x. unfold MonoL1. destruct (qleb_spec (qz 0) l1) as [P|P]; split; try (split; [discriminate|]; intros; exfalso; qlra);
    try (split; intros; [assumption|reflexivity]); try discriminate.
  intros r E. injection E as <-. unfold qsum. ring.
Qed.
Print Assumptions C15_regularizer_value.

Example C15_ex : MonoL1 (Q2Qc (1 # 2)) [qz 3; qz 5] = Ok (qz 4) /\ MonoL1 (Q2Qc (1 # 2)) [qz 3; qz 7] = Ok (qz 5)
  /\ MonoL1 (qz (-1)) [qz 3] = Raise.
Proof. qvm. Qed.

(** C16: whatever happened before, a call uses bitwidths inside the clip range
    and leaves bitwidths already inside untouched. *)
Theorem C16_call_uses_clipped_bitwidths : forall pw ln2 q x training record noise y q' lo hi,
  q_clip q = Some (lo, hi) -> (lo <= hi)%Qc ->
  call pw ln2 q x training record noise = Ok (y, q') ->
  Forall (fun f => (lo <= f)%Qc /\ (f <= hi)%Qc) (data (q_fbw q')) /\ q_clip q' = Some (lo, hi) /\
  (Forall (fun f => (lo <= f)%Qc /\ (f <= hi)%Qc) (data (q_fbw q)) -> q_fbw q' = q_fbw q) /\
  exists q2, forward pw ln2 (with_fbw q (q_fbw q')) x training record noise = Ok (y, q2).
Proof. exact call_clip. Qed.
Print Assumptions C16_call_uses_clipped_bitwidths.

(** C16: over histories of resets, bitwidth updates and calls that end in a call. *)
Theorem C16_history : forall pw ln2 f s strategy exact lo hi ops x training record noise q log, (lo <= hi)%Qc ->
  hrun pw ln2 (hgq_build f s strategy exact (Some (lo, hi)), []) (ops ++ [HCall x training record noise]) = Ok (q, log) ->
  Forall (fun f => (lo <= f)%Qc /\ (f <= hi)%Qc) (data (q_fbw q)).
Proof.
  intros pw ln2 f s strategy exact lo hi ops x training record noise q log Hc.
  assert (G : forall ops st st', hrun pw ln2 st (ops ++ [HCall x training record noise]) = Ok st' ->
    exists st1, hrun pw ln2 st ops = Ok st1 /\ hstep pw ln2 st1 (HCall x training record noise) = Ok st').
  { clear. induction ops as [|op ops IH]; intros st st' E; cbn [app hrun] in *.
    - apply rbind_ok in E. destruct E as [s1 [E1 E2]]. injection E2 as <-. eauto.
    - apply rbind_ok in E. destruct E as [s1 [E1 E2]]. rewrite E1. cbn [rbind]. apply IH, E2. }
  intros E. apply G in E. destruct E as [[q1 log1] [E1 E2]]. apply hrun_qclip in E1. cbn [fst] in E1.
  cbn [hstep] in E2. apply rbind_ok in E2. destruct E2 as [[y q'] [E2 E3]]. cbn [fst snd] in E3. injection E3 as <- _.
  eapply call_clip in E2; [apply E2|exact E1|exact Hc].
Qed.
Print Assumptions C16_history.

Example C16_ex : forall pw ln2,
  rbind (hrun pw ln2 (hgq_build (mkT [1]%nat [qz 6]) (Some [0]) 0 true (Some (qz (-2), qz 4)), [])
    [HSetBits (mkT [1]%nat [qz (-9)]); HCall (mkT [1]%nat [qz 6]) false true (fun _ => qz 0);
     HSetBits (mkT [1]%nat [qz 3]); HCall (mkT [1]%nat [Q2Qc (1 # 3)]) false true (fun _ => qz 0)])
    (fun st => Ok (data (q_fbw (fst st)) ++ concat (map data (snd st)))%list) = Ok [qz 3; qz 8; Q2Qc (3 # 8)].
Proof. qvm. Qed.

(** C16: the bias path does not clip: a bias is quantized with the bitwidth the
    optimiser left, here 10 fractional bits against a clip at 8. *)
Theorem C16_bias_uses_clipped_bitwidths_refuted :
  exists q x y lo hi, q_clip q = Some (lo, hi) /\ (lo <= hi)%Qc /\
    (forall pw ln2 noise, bias_forward pw ln2 q x false (-1) noise = Ok y) /\
    exists v, In v (data y) /\ forall r, (qz r <= hi)%Qc -> ~ on_grid r v.
Proof.
  exists (hgq_build (mkT [1; 1]%nat [qz 10]) (Some [0]) 0 true (Some (qz 0, qz 8))),
    (mkT [1]%nat [Q2Qc (1 # 1024)]), (mkT [1]%nat [Q2Qc (1 # 1024)]), (qz 0), (qz 8).
  split; [reflexivity|]. split; [vm_compute; discriminate|]. split; [qvm|].
  exists (Q2Qc (1 # 1024)). split; [left; reflexivity|]. intros r Hr [m Hm].
  apply (proj1 (qz_le _ _)) in Hr. apply (f_equal (fun v => (v * pow2 r)%Qc)) in Hm.
  rewrite <- Qcmult_assoc, (Qcmult_comm (pow2 (- r))) in Hm. rewrite pow2_opp_r, Qcmult_1_r in Hm.
  replace (Q2Qc (1 # 1024)) with (pow2 (-10)) in Hm by qvm.
  rewrite <- pow2_add in Hm.
  assert (P : (pow2 (-10 + r) < qz 1)%Qc) by (change (qz 1) with (pow2 0); apply pow2_lt; lia).
  pose proof (pow2_pos (-10 + r)) as P'. rewrite Hm in P, P'.
  apply (proj1 (qz_lt _ _)) in P. change 0%Qc with (qz 0) in P'. apply (proj1 (qz_lt _ _)) in P'. lia.
Qed.
Print Assumptions C16_bias_uses_clipped_bitwidths_refuted.

(** C24 *)
Theorem C24_degeneracy : forall s shape skip bw deg,
  compute_bw_shape_and_degeneracy s shape = Ok (skip, bw, deg) ->
  (deg * count bw = count shape)%nat /\ length bw = length shape /\
  forall m, (m < length shape)%nat -> nth m bw None = Some 1%nat \/ nth m bw None = nth m shape None.
Proof.
  intros s shape skip bw deg E. unfold compute_bw_shape_and_degeneracy in E.
  apply rbind_ok in E. destruct E as [[dims|] [E1 E2]].
  - apply rbind_ok in E2. destruct E2 as [[s' d'] [E2 E3]]. cbn [fst snd] in E3. injection E3 as <- <- <-.
    apply bw_loop_spec in E2. destruct E2 as [H1 [H2 H3]]. split; [lia|]. split; [assumption|].
    intros m Hm. rewrite (H3 m Hm). destruct (existsb _ _); auto.
  - injection E2 as <- <- <-. split; [lia|]. split; [reflexivity|]. auto.
Qed.
Print Assumptions C24_degeneracy.

(** C24: which dimensions are merged, for each documented specification. *)
Theorem C24_bitwidth_shape : forall s shape skip bw deg,
  compute_bw_shape_and_degeneracy (SkipStr s) shape = Ok (skip, bw, deg) ->
  forall m, (m < length shape)%nat -> nth m bw None =
    if (String.eqb s "all" || (String.eqb s "batch" && Nat.eqb m 0)
        || (String.eqb s "except_last" && negb (Nat.eqb (S m) (length shape)))
        || (String.eqb s "except_1st" && negb (Nat.eqb m 1)))%bool
    then Some 1%nat else nth m shape None.
Proof.
  intros s shape skip bw deg E m Hm. unfold compute_bw_shape_and_degeneracy in E.
  apply rbind_ok in E. destruct E as [o [E1 E2]]. cbn [resolve_skip] in E1.
  assert (IX : forall j, (j < length shape)%nat -> py_index (length shape) (Z.of_nat j) = Some j).
  { intros j Hj. unfold py_index. replace (Z.leb 0 (Z.of_nat j)) with true by (symmetry; apply Z.leb_le; lia).
    replace (Z.ltb (Z.of_nat j) (Z.of_nat (length shape))) with true by (symmetry; apply Z.ltb_lt; lia).
    cbn [andb]. rewrite Nat2Z.id. reflexivity. }
  assert (EX : forall a n, (a + n <= length shape)%nat ->
    existsb (fun d => match py_index (length shape) d with Some j => Nat.eqb m j | None => false end) (map Z.of_nat (seq a n))
    = (Nat.leb a m && Nat.ltb m (a + n))%bool).
  { intros a n. revert a. induction n as [|n IHn]; intros a Ha; cbn [seq map existsb].
    - destruct (Nat.leb_spec a m), (Nat.ltb_spec m (a + 0)); try reflexivity; lia.
    - rewrite (IX a) by lia. rewrite IHn by lia.
      destruct (Nat.eqb_spec m a), (Nat.leb_spec (S a) m), (Nat.ltb_spec m (S a + n)), (Nat.leb_spec a m),
        (Nat.ltb_spec m (a + S n)); try reflexivity; lia. }
  destruct (String.eqb_spec s "all") as [Ha|Ha].
  { injection E1 as <-. apply rbind_ok in E2. destruct E2 as [[s' d'] [E2 E3]]. cbn [fst snd] in E3. injection E3 as <- <- <-.
    apply bw_loop_spec in E2. destruct E2 as [_ [_ H3]]. rewrite (H3 m Hm), EX by lia.
    cbn [orb]. replace (Nat.ltb m (0 + length shape)) with true by (symmetry; apply Nat.ltb_lt; lia). reflexivity. }
  destruct (String.eqb_spec s "batch") as [Hb|Hb].
  { subst s. injection E1 as <-. apply rbind_ok in E2. destruct E2 as [[s' d'] [E2 E3]]. cbn [fst snd] in E3. injection E3 as <- <- <-.
    apply bw_loop_spec in E2. destruct E2 as [_ [_ H3]]. rewrite (H3 m Hm). cbn [existsb].
    change 0 with (Z.of_nat 0). rewrite IX by lia. cbn. rewrite !orb_false_r. reflexivity. }
  destruct (String.eqb_spec s "none") as [Hn|Hn].
  { subst s. injection E1 as <-. injection E2 as <- <- <-. reflexivity. }
  destruct (String.eqb_spec s "except_last") as [Hl|Hl].
  { subst s. injection E1 as <-. apply rbind_ok in E2. destruct E2 as [[s' d'] [E2 E3]]. cbn [fst snd] in E3. injection E3 as <- <- <-.
    apply bw_loop_spec in E2. destruct E2 as [_ [_ H3]]. rewrite (H3 m Hm), EX by lia.
    cbn [orb andb Nat.leb Nat.add]. rewrite orb_false_r.
    destruct (Nat.eqb_spec (S m) (length shape)), (Nat.ltb_spec m (length shape - 1)); try reflexivity; lia. }
  destruct (String.eqb_spec s "except_1st") as [H1|H1]; [|discriminate].
  subst s. injection E1 as <-. apply rbind_ok in E2. destruct E2 as [[s' d'] [E2 E3]]. cbn [fst snd] in E3. injection E3 as <- <- <-.
  apply bw_loop_spec in E2. destruct E2 as [_ [_ H3]]. rewrite (H3 m Hm). cbn [existsb].
  change 0 with (Z.of_nat 0). rewrite IX by lia.
  destruct (length shape) as [|[|n]] eqn:EL; [lia| |].
  { assert (m = 0)%nat by lia. subst m. reflexivity. }
  rewrite EX by lia. cbn [orb andb].
  destruct (Nat.eqb_spec m 0), (Nat.leb_spec 2 m), (Nat.ltb_spec m (2 + (S (S n) - 2))), (Nat.eqb_spec m 1); try reflexivity; lia.
Qed.
Print Assumptions C24_bitwidth_shape.

Theorem C24_raises_iff : forall s shape,
  compute_bw_shape_and_degeneracy s shape = Raise <->
  match s with
  | SkipStr s => ~ In s ["all"; "batch"; "none"; "except_last"; "except_1st"]
                 \/ (In s ["batch"; "except_1st"] /\ shape = [])
  | SkipDims d => exists j, In j d /\ ~ (- Z.of_nat (length shape) <= j < Z.of_nat (length shape))
  | SkipNone => False
  end.
Proof.
  intros s shape. unfold compute_bw_shape_and_degeneracy. destruct s as [s|d|]; cbn [resolve_skip].
  3: cbn [rbind]; split; [discriminate|contradiction].
  2: { cbn [rbind]. destruct (bw_loop d shape 1) as [r|] eqn:E; cbn [rbind].
       - split; [discriminate|]. intros H. apply bw_loop_raise with (deg := 1%nat) in H. congruence.
       - apply bw_loop_raise in E. tauto. }
  assert (L : forall dims, (rbind (bw_loop dims shape 1) (fun r => Ok (Some dims, fst r, snd r)) = Raise)
    <-> exists d, In d dims /\ ~ (- Z.of_nat (length shape) <= d < Z.of_nat (length shape))).
  { intros dims. rewrite <- (bw_loop_raise dims shape 1). destruct (bw_loop dims shape 1); cbn [rbind]; split; congruence. }
  destruct (String.eqb_spec s "all") as [->|Ha].
  { cbn [rbind]. rewrite L. split.
    - intros [d [H1 H2]]. apply in_map_iff in H1. destruct H1 as [n [<- H1]]. apply in_seq in H1. lia.
    - intros [H|[[H|[H|[]]] _]]; try discriminate. exfalso. apply H. cbn. auto. }
  destruct (String.eqb_spec s "batch") as [->|Hb].
  { cbn [rbind]. rewrite L. split.
    - intros [d [[<-|[]] H2]]. right. split; [cbn; auto|]. destruct shape; [reflexivity|cbn [length] in H2; lia].
    - intros [H|[_ ->]]; [exfalso; apply H; cbn; auto|]. exists 0. cbn. split; [auto|lia]. }
  destruct (String.eqb_spec s "none") as [->|Hn].
  { cbn [rbind]. split; [discriminate|]. intros [H|[[H|[H|[]]] _]]; try discriminate. exfalso. apply H. cbn. auto. }
  destruct (String.eqb_spec s "except_last") as [->|Hl].
  { cbn [rbind]. rewrite L. split.
    - intros [d [H1 H2]]. apply in_map_iff in H1. destruct H1 as [n [<- H1]]. apply in_seq in H1. lia.
    - intros [H|[[H|[H|[]]] _]]; try discriminate. exfalso. apply H. cbn. auto. }
  destruct (String.eqb_spec s "except_1st") as [->|H1].
  { cbn [rbind]. rewrite L. split.
    - intros [d [[<-|H1] H2]].
      + right. split; [cbn; auto|]. destruct shape; [reflexivity|cbn [length] in H2; lia].
      + apply in_map_iff in H1. destruct H1 as [n [<- H1]]. apply in_seq in H1. lia.
    - intros [H|[_ ->]]; [exfalso; apply H; cbn; auto 6|]. exists 0. split; [left; reflexivity|]. cbn. lia. }
  cbn [rbind]. split; [|reflexivity]. intros _. left. cbn. intuition congruence.
Qed.
Print Assumptions C24_raises_iff.

Example C24_ex :
  compute_bw_shape_and_degeneracy (SkipStr "except_last") [None; Some 8; Some 4; Some 3]%nat
    = Ok (Some [0; 1; 2], [Some 1; Some 1; Some 1; Some 3]%nat, 32%nat) /\
  compute_bw_shape_and_degeneracy (SkipDims [0; -1]) [None; Some 8; Some 3]%nat
    = Ok (Some [0; -1], [Some 1; Some 8; Some 1]%nat, 3%nat) /\
  compute_bw_shape_and_degeneracy (SkipStr "channel") [None; Some 8]%nat = Raise.
Proof. repeat split. Qed.

(** C26: each group gets the least b - log2|w| over its non-zero weights. *)
Theorem C26_adapt_group_minimum : forall lg s m pre rest fbw ref, prefix_skip s m -> length pre = m ->
  reg_ok m rest fbw -> shape ref = (pre ++ rest)%list -> length (data ref) = prodn (shape ref) ->
  exists nf, adapt_bw_bits lg s fbw ref = Ok nf /\ reg_ok m rest nf /\
    forall g d, (g < prodn rest)%nat ->
      least (fun v => exists w, in_group (prodn rest) g (data ref) w /\ w <> qz 0 /\
                                v = (nth g (data fbw) (qz 0) - lg (qabs w))%Qc) (nth g (data nf) d).
Proof. exact adapt_spec. Qed.
Print Assumptions C26_adapt_group_minimum.

(** C26: a weight with its own bitwidth keeps b significant bits, up to one, whatever its magnitude. *)
Theorem C26_same_number_of_bits : forall (lg : Qc -> Qc) b w r f, w <> qz 0 ->
  (forall v e, (qz 0 < v)%Qc -> (pow2 e <= v)%Qc -> (qz e <= lg v)%Qc) ->
  (forall v e, (qz 0 < v)%Qc -> (v < pow2 e)%Qc -> (lg v < qz e)%Qc) ->
  adapt_elem lg (qz b) w = Fin f -> nearest_even f r ->
  (pow2 (b - 1) <= qabs w * pow2 r)%Qc /\ (qabs w * pow2 r < pow2 (b + 1))%Qc.
Proof. exact adapt_bits. Qed.
Print Assumptions C26_same_number_of_bits.

(** C26: a group without non-zero weight is at the upper clip after the next call. *)
Theorem C26_zero_weights_to_upper_clip : forall lg s m pre rest fbw ref nf g lo hi, prefix_skip s m -> length pre = m ->
  reg_ok m rest fbw -> shape ref = (pre ++ rest)%list -> length (data ref) = prodn (shape ref) ->
  adapt_bw_bits lg s fbw ref = Ok nf -> (g < prodn rest)%nat -> (lo <= hi)%Qc ->
  (forall w, in_group (prodn rest) g (data ref) w -> w = qz 0) ->
  clip_ext (nth g (data nf) PosInf) lo hi = hi.
Proof.
  intros lg s m pre rest fbw ref nf g lo hi H1 H2 H3 H4 H5 E Hg Hc H.
  destruct (adapt_spec lg s m pre rest fbw ref H1 H2 H3 H4 H5) as [nf' [E' [_ L]]].
  rewrite E in E'. injection E' as <-. specialize (L g PosInf Hg).
  destruct L as [[_ ->]|[v [[w [A [B _]]] _]]]; [|exfalso; apply B, H, A].
  cbn [clip_ext]. destruct (qmax_spec hi lo) as [[A ->]|[A ->]]; [apply Qcle_antisym; assumption|reflexivity].
Qed.
Print Assumptions C26_zero_weights_to_upper_clip.

Example C26_ex : let lg := fun v => qz (flog2 v) in
  (forall v e, (qz 0 < v)%Qc -> (pow2 e <= v)%Qc -> (qz e <= lg v)%Qc) /\
  (forall v e, (qz 0 < v)%Qc -> (v < pow2 e)%Qc -> (lg v < qz e)%Qc) /\
  rbind (adapt_bw_bits lg (Some [0]) (mkT [1; 2]%nat [qz 4; qz 4]) (mkT [2; 2]%nat [qz 8; qz 0; Q2Qc (-1 # 2); qz 0]))
    (fun t => Ok (map (fun e => clip_ext e (qz (-8)) (qz 8)) (data t))) = Ok [qz 1; qz 8].
Proof.
  intros lg. split; [|split; [|qvm]]; intros v e P H; unfold lg.
  - apply (proj2 (qz_le _ _)). destruct (Z.lt_ge_cases (flog2 v) e) as [C|C]; [|assumption].
    apply (flog2_lt_iff v e P) in C. exfalso. qlra.
  - apply (proj2 (qz_lt _ _)). apply (flog2_lt_iff v e P). assumption.
Qed.

(** C27: channels last: the bias of channel j is on the grid of the finest bitwidth of that channel. *)
Theorem C27_bias_finest_grid_channels_last : forall pw ln2 q x noise pre c,
  shape (q_fbw q) = (pre ++ [c])%list -> length (data (q_fbw q)) = prodn (shape (q_fbw q)) -> prodn pre <> 0%nat ->
  shape x = [c] ->
  exists y, bias_forward pw ln2 q x false (-1) noise = Ok y /\ shape y = [c] /\
  forall j, (j < c)%nat -> exists fm r, greatest (in_group c j (data (q_fbw q))) (Fin fm) /\ nearest_even fm r /\
    (q_strategy q = 3 -> floor_on_grid r (nth j (data x) (qz 0)) (nth j (data y) (qz 0))) /\
    (q_strategy q <> 3 -> round_on_grid r (nth j (data x) (qz 0)) (nth j (data y) (qz 0))).
Proof.
  intros pw ln2 q x noise pre c Hs L NE Hx.
  destruct (reduce_max_last pre c (q_fbw q) Hs L) as [S [_ G]].
  destruct (bias_forward_ok pw ln2 q x (-1) noise _ eq_refl) as [y E]; [congruence|].
  exists y. split; [exact E|]. destruct (bias_vec pw ln2 q x (-1) noise _ y c eq_refl Hx S E) as [Sy [_ H]].
  split; [assumption|]. intros j Hj. destruct (H j Hj) as [r [Hr Hq]]. eexists _, r. split; [apply (G NE j (qz 0) Hj)|]. auto.
Qed.
Print Assumptions C27_bias_finest_grid_channels_last.

(** C27: channels first (channel_loc = 1). *)
Theorem C27_bias_finest_grid_channels_first : forall pw ln2 q x noise a c s,
  shape (q_fbw q) = a :: c :: s -> length (data (q_fbw q)) = prodn (shape (q_fbw q)) -> a <> 0%nat -> prodn s <> 0%nat ->
  shape x = [c] ->
  exists y, bias_forward pw ln2 q x false 1 noise = Ok y /\ shape y = [c] /\
  forall j, (j < c)%nat -> exists fm r,
    greatest (fun v => exists p, nth_error (data (q_fbw q)) p = Some v /\ Nat.modulo (Nat.div p (prodn s)) c = j) (Fin fm) /\
    nearest_even fm r /\
    (q_strategy q = 3 -> floor_on_grid r (nth j (data x) (qz 0)) (nth j (data y) (qz 0))) /\
    (q_strategy q <> 3 -> round_on_grid r (nth j (data x) (qz 0)) (nth j (data y) (qz 0))).
Proof.
  intros pw ln2 q x noise a c s Hs L N1 N2 Hx.
  destruct (reduce_max_first a c s (q_fbw q) Hs L) as [S G].
  destruct (bias_forward_ok pw ln2 q x 1 noise _ eq_refl) as [y E]; [congruence|].
  exists y. split; [exact E|]. destruct (bias_vec pw ln2 q x 1 noise _ y c eq_refl Hx S E) as [Sy [_ H]].
  split; [assumption|]. intros j Hj. destruct (H j Hj) as [r [Hr Hq]]. eexists _, r. split; [apply (G N1 N2 j (qz 0) Hj)|]. auto.
Qed.
Print Assumptions C27_bias_finest_grid_channels_first.

Example C27_ex : forall pw ln2 noise,
  bias_forward pw ln2 (hgq_build (mkT [1; 2; 2]%nat [qz 0; qz 1; qz 3; qz (-1)]) (Some [0]) 0 true None)
    (mkT [2]%nat [Q2Qc (1 # 3); Q2Qc (1 # 3)]) false (-1) noise = Ok (mkT [2]%nat [Q2Qc (3 # 8); Q2Qc (1 # 2)]) /\
  bias_forward pw ln2 (hgq_build (mkT [1; 2; 2]%nat [qz 0; qz 1; qz 3; qz (-1)]) (Some [0]) 0 true None)
    (mkT [2]%nat [Q2Qc (1 # 3); Q2Qc (1 # 3)]) false 1 noise = Ok (mkT [2]%nat [Q2Qc (1 # 2); Q2Qc (3 # 8)]).
Proof. qvm. Qed.
