(** Properties C17, C19-C23, C25: range recording and the bitwidths derived from it
    (src/HGQ/quantizer/quantizer.py). *)
From Coq Require Import ZArith QArith Qcanon List Bool String Lia.
From Verif Require Import Base.Num Base.NumFacts Base.Tensor Base.Compute Model.FixedPoint Model.Quantizer
  Spec.Fixed Spec.Quant Spec.History Proofs.TensorP Proofs.QuantizerP Proofs.RecordP Proofs.HistoryP Proofs.BitsP
  Proofs.ShapeP Proofs.CallP.
Import ListNotations.
Local Open Scope string_scope.
Local Open Scope Z_scope.

(** C17: the registers of group g are the extremes of what the group produced since the last reset. *)
Theorem C17_registers_are_extremes : forall pw ln2 m rest f s strategy exact clip ops q log,
  prefix_skip s m -> reg_ok m rest f -> Forall (ok_op m rest) ops ->
  hrun pw ln2 (hgq_build f s strategy exact clip, []) ops = Ok (q, log) ->
  forall g, (g < prodn rest)%nat ->
    least (logged (prodn rest) g log) (nth g (data (q_min q)) PosInf) /\
    greatest (logged (prodn rest) g log) (nth g (data (q_max q)) NegInf).
Proof.
  intros pw ln2 m rest f s strategy exact clip ops q log Hs Hf Ho E g Hg.
  destruct (hrun_inv pw ln2 m rest ops _ _ (hinv_build m rest f s strategy exact clip Hs Hf) Ho E)
    as [_ [_ [_ [_ [L [G _]]]]]]. auto.
Qed.
Print Assumptions C17_registers_are_extremes.

(** C17: the log really is what the recording calls returned since the last reset. *)
Theorem C17_log_meaning : forall pw ln2 ops op st st' , hrun pw ln2 st (ops ++ [op]) = Ok st' ->
  exists q log, hrun pw ln2 st ops = Ok (q, log) /\
    match op with
    | HReset => snd st' = []
    | HSetBits f => st' = (with_fbw q f, log)
    | HCall x training record noise => exists y,
        call pw ln2 q x training record noise = Ok (y, fst st') /\ snd st' = if record then (log ++ [y])%list else log
    end.
Proof.
  intros pw ln2 ops op. induction ops as [|o ops IH]; intros st st' E; cbn [app hrun] in *.
  - apply rbind_ok in E. destruct E as [s1 [E1 E2]]. injection E2 as <-. destruct st as [q log]. exists q, log.
    split; [reflexivity|]. destruct op as [|f|x t r n]; cbn [hstep] in E1.
    + injection E1 as <-. reflexivity.
    + destruct (list_eq_dec _ _ _); [|discriminate]. injection E1 as <-. reflexivity.
    + apply rbind_ok in E1. destruct E1 as [[y q'] [E1 E2]]. injection E2 as <-. exists y. auto.
  - apply rbind_ok in E. destruct E as [s1 [E1 E2]]. rewrite E1. cbn [rbind]. apply IH, E2.
Qed.
Print Assumptions C17_log_meaning.

(** C17: calls that do not record leave the registers alone. *)
Theorem C17_nonrecording_calls_change_nothing : forall pw ln2 q x training noise y q',
  call pw ln2 q x training false noise = Ok (y, q') -> q_min q' = q_min q /\ q_max q' = q_max q.
Proof. exact nonrecord_registers. Qed.
Print Assumptions C17_nonrecording_calls_change_nothing.

Example C17_ex : forall pw ln2,
  rbind (hrun pw ln2 (hgq_build (mkT [1; 2]%nat [qz 1; qz 0]) (Some [0]) 0 true None, [])
    [HCall (mkT [1; 2]%nat [qz 100; qz 100]) false true (fun _ => qz 0); HReset;
     HCall (mkT [2; 2]%nat [Q2Qc (3 # 4); qz (-7); qz (-3); qz 2]) false true (fun _ => qz 0);
     HCall (mkT [1; 2]%nat [qz 50; qz 50]) false false (fun _ => qz 0);
     HCall (mkT [1; 2]%nat [qz (-4); qz 5]) false true (fun _ => qz 0)])
    (fun st => Ok (map (fin (qz 0)) (data (q_min (fst st)) ++ data (q_max (fst st)))))
  = Ok [qz (-4); qz (-7); qz 1; qz 5].
Proof. qvm. Qed.

(** C25: recording succeeds for skipped prefixes, whatever the history. *)
Theorem C25_prefix_recording_succeeds : forall pw ln2 m rest f s strategy exact clip ops,
  prefix_skip s m -> reg_ok m rest f -> Forall (ok_op m rest) ops ->
  0 <= strategy <= 3 \/ (forall x n r, ~ In (HCall x true r n) ops) ->
  exists q log, hrun pw ln2 (hgq_build f s strategy exact clip, []) ops = Ok (q, log).
Proof.
  intros pw ln2 m rest f s strategy exact clip ops Hs Hf Ho H.
  destruct (hrun_spec pw ln2 m rest ops _ _ (hinv_build m rest f s strategy exact clip Hs Hf) Ho H) as [q [log [E _]]]. eauto.
Qed.
Print Assumptions C25_prefix_recording_succeeds.

(** C25: which specifications are prefixes: all but 'except_1st'. *)
Theorem C25_prefix_specs : forall s rank r, In s ["all"; "batch"; "none"; "except_last"] -> (0 < rank)%nat ->
  resolve_skip (SkipStr s) rank = Ok r -> exists m, (m <= rank)%nat /\ prefix_skip r m.
Proof.
  intros s rank r H Hr E. cbn in H. destruct H as [<-|[<-|[<-|[<-|[]]]]]; cbn in E; injection E as <-.
  - exists rank. split; [lia|]. left. reflexivity.
  - exists 1%nat. split; [lia|]. left. reflexivity.
  - exists 0%nat. split; [lia|]. right. auto.
  - exists (rank - 1)%nat. split; [lia|]. left. reflexivity.
Qed.
Print Assumptions C25_prefix_specs.

(** C25: 'except_1st' cannot record on tensors with more than one channel. *)
Theorem C25_except_1st_raises : forall pw ln2 q x training noise n c s skip,
  s <> [] -> c <> 1%nat -> shape x = n :: c :: s ->
  resolve_skip (SkipStr "except_1st") (length (shape x)) = Ok skip -> q_skip q = skip ->
  shape (q_fbw q) = (1 :: c :: repeat 1 (length s))%nat -> shape (q_min q) = shape (q_fbw q) ->
  call pw ln2 q x training true noise = Raise.
Proof.
  intros pw ln2 q x training noise n c s skip H1 H2 H3 H4 H5 H6 H7.
  apply (except_1st_raises pw ln2 q x training noise n c s); try assumption.
  rewrite H5. rewrite H3 in H4. cbn [length] in H4. cbn in H4. rewrite Nat.sub_0_r in H4. congruence.
Qed.
Print Assumptions C25_except_1st_raises.

(** C25: those shapes are the ones the code computes for 'except_1st'. *)
Example C25_ex : forall pw ln2,
  compute_bw_shape_and_degeneracy (SkipStr "except_1st") [None; Some 2; Some 3]%nat
    = Ok (Some [0; 2], [Some 1; Some 2; Some 1]%nat, 3%nat) /\
  call pw ln2 (hgq_build (mkT [1; 2; 1]%nat [qz 1; qz 2]) (Some [0; 2]) 0 true None)
    (mkT [1; 2; 3]%nat (map qz [1; 2; 3; 4; 5; 6])) false true (fun _ => qz 0) = Raise /\
  rbind (call pw ln2 (hgq_build (mkT [1; 2; 1]%nat [qz 1; qz 2]) (Some [0; 2]) 0 true None)
    (mkT [1; 2; 3]%nat (map qz [1; 2; 3; 4; 5; 6])) false false (fun _ => qz 0)) (fun r => Ok (data (fst r)))
   = Ok (map qz [1; 2; 3; 4; 5; 6]) /\
  rbind (call pw ln2 (hgq_build (mkT [1; 1; 3]%nat [qz 1; qz 2; qz 0]) (Some [0; 1]) 0 true None)
    (mkT [1; 2; 3]%nat (map qz [1; 2; 3; 4; 5; 6])) false true (fun _ => qz 0))
    (fun r => Ok (map (fin (qz 0)) (data (q_min (snd r)))))
   = Ok (map qz [1; 2; 3]).
Proof. qvm. Qed.

(** C21 *)
Theorem C21_untraced_raises : forall f s strategy exact clip pos, data f <> [] ->
  get_bits_exact (hgq_build f s strategy exact clip) pos = Raise.
Proof. intros f s strategy exact clip pos H. unfold hgq_build. apply exact_raise. exact H. Qed.
Print Assumptions C21_untraced_raises.
Theorem C21_reset_raises : forall q pos, data (q_fbw q) <> [] -> get_bits_exact (minmax_reg_reset q) pos = Raise.
Proof. exact exact_raise. Qed.
Print Assumptions C21_reset_raises.

(** C21: over histories: it raises exactly if nothing was recorded since the last reset. *)
Theorem C21_raises_iff_nothing_recorded : forall pw ln2 m rest f s strategy exact clip ops q log pos,
  prefix_skip s m -> reg_ok m rest f -> prodn rest <> 0%nat -> Forall (ok_op m rest) ops ->
  hrun pw ln2 (hgq_build f s strategy exact clip, []) ops = Ok (q, log) ->
  (get_bits_exact q pos = Raise <-> forall y, In y log -> data y = []).
Proof.
  intros pw ln2 m rest f s strategy exact clip ops q log pos Hs Hf NZ Ho E.
  pose proof (hrun_inv pw ln2 m rest ops _ _ (hinv_build m rest f s strategy exact clip Hs Hf) Ho E) as I.
  split.
  - intros R y Hy. destruct (data y) as [|v l] eqn:D; [reflexivity|exfalso].
    destruct (exact_ok m rest q log pos I) as [b [B _]]; [exists y; split; [assumption|rewrite D; discriminate]|congruence].
  - intros H. destruct I as [_ [[_ F2] [[_ M2] [[_ X2] [L [G _]]]]]].
    assert (N : forall v, ~ logged (prodn rest) 0 log v).
    { intros v [y [Hy [j Hj]]]. rewrite (H y Hy) in Hj. destruct (j * prodn rest + 0)%nat; discriminate. }
    specialize (L 0%nat ltac:(lia)). unfold get_bits_exact. cbv zeta.
    destruct L as [[_ L]|[v [P _]]]; [|exfalso; apply (N v P)].
    destruct (data (q_min q)) as [|mn lm]; [cbn [length] in M2; lia|].
    destruct (data (q_max q)) as [|mx lx]; [cbn [length] in X2; lia|].
    cbn [nth] in L. subst mn. cbn [combine forallb range_ok fst snd]. destruct mx; reflexivity.
Qed.
Print Assumptions C21_raises_iff_nothing_recorded.

Example C21_ex : forall pw ln2,
  rbind (hrun pw ln2 (hgq_build (mkT [1; 1]%nat [qz 1]) (Some [0]) 0 true None, [])
     [HCall (mkT [2; 1]%nat [qz 3; qz (-3)]) false true (fun _ => qz 0)])
     (fun st => get_bits_exact (fst st) false) = Ok [(1, 2, 1)] /\
  rbind (hrun pw ln2 (hgq_build (mkT [1; 1]%nat [qz 1]) (Some [0]) 0 true None, [])
     [HCall (mkT [2; 1]%nat [qz 3; qz (-3)]) false true (fun _ => qz 0); HReset;
      HCall (mkT [2; 1]%nat [qz 3; qz (-3)]) false false (fun _ => qz 0)])
     (fun st => get_bits_exact (fst st) false) = Raise.
Proof. intros; split; vm_compute; reflexivity. Qed.

(** C19: [r] is the number of fractional bits, [mn, mx] the recorded range. *)
Theorem C19_bits_cover_and_minimal : forall fbw r mn mx k i f,
  nearest_even fbw r -> -32 <= r <= 94 -> on_grid r mn -> on_grid r mx -> (mn <= mx)%Qc ->
  (- pow2 32 <= mn)%Qc -> (mx < pow2 32)%Qc -> bits_exact_elem false mn mx fbw = (k, i, f) ->
  (mn = qz 0 /\ mx = qz 0 /\ k = 0 /\ i = 0 /\ f = 0) \/
  ((mn <> qz 0 \/ mx <> qz 0) /\ (k = 0 \/ k = 1) /\ (k = 1 <-> (mn < qz 0)%Qc) /\ f = r /\ 0 < k + i + f /\
   (forall v, on_grid r v -> (mn <= v)%Qc -> (v <= mx)%Qc -> fits k i f v) /\
   (forall i', fits k i' f mn -> fits k i' f mx -> i <= i')).
Proof. exact bits_cover_minimal. Qed.
Print Assumptions C19_bits_cover_and_minimal.

(** C19: from calibration to bits: after any history of resets and inference
    calls, every value produced since the last reset fits the reported format. *)
Theorem C19_calibrated_values_fit : forall pw ln2 m rest f s strategy exact lo hi ops q log bits,
  prefix_skip s m -> reg_ok m rest f -> (lo <= hi)%Qc -> Forall (ok_op m rest) ops -> Forall inference_op ops ->
  (qz (-32) <= lo)%Qc -> (hi <= qz 94)%Qc ->
  hrun pw ln2 (hgq_build f s strategy exact (Some (lo, hi)), []) ops = Ok (q, log) ->
  get_bits_exact q false = Ok bits ->
  forall g v, (g < prodn rest)%nat -> logged (prodn rest) g log v ->
    (forall u, logged (prodn rest) g log u -> (- pow2 32 <= u)%Qc /\ (u < pow2 32)%Qc) ->
    exists k i fb, nth_error bits g = Some (k, i, fb) /\ fits k i fb v.
Proof. exact history_bits. Qed.
Print Assumptions C19_calibrated_values_fit.

Example C19_ex : bits_exact_elem false (qz (-4)) (Q2Qc (7 # 2)) (Q2Qc (5 # 4)) = (1, 2, 1) /\
  bits_exact_elem false (qz (-4)) (qz 4) (Q2Qc (5 # 4)) = (1, 3, 1) /\
  bits_exact_elem false (qz 0) (Q2Qc (3 # 2)) (qz 1) = (0, 1, 1) /\
  bits_exact_elem false (qz 8) (qz 24) (qz (-3)) = (0, 5, -3) /\
  bits_exact_elem false (Q2Qc (-1 # 8)) (Q2Qc (-1 # 8)) (qz 3) = (1, -3, 3) /\
  bits_exact_elem false (qz 0) (qz 0) (qz 3) = (0, 0, 0).
Proof. repeat split; vm_compute; reflexivity. Qed.

(** C19: beyond 2^32 the integer width is clamped and the range is not covered. *)
Theorem C19_large_values_refuted : exists v k i f, on_grid 0 v /\
  bits_exact_elem false v v (qz 0) = (k, i, f) /\ ~ fits k i f v.
Proof.
  exists (pow2 32), 0, 32, 0. split; [exists (2 ^ 32); qvm|]. split; [vm_compute; reflexivity|].
  intros [_ [_ H]]. apply Qclt_not_eq in H. apply H. reflexivity.
Qed.
Print Assumptions C19_large_values_refuted.

(** C19: a bitwidth below -32 (bw_clip disabled or changed) wraps around in int8 or cannot represent the range. *)
Theorem C19_coarse_grid_refuted : exists fbw v k i f, nearest_even fbw (-40) /\ on_grid (-40) v /\
  bits_exact_elem false v v fbw = (k, i, f) /\ ~ fits k i f v.
Proof.
  exists (qz (-40)), (pow2 40), 0, 32, (-40). split; [split; [split; vm_compute; discriminate|intros _; exists (-20); reflexivity]|].
  split; [exists 1; qvm|]. split; [vm_compute; reflexivity|].
  intros [_ [_ H]]. assert (C : (pow2 32 < pow2 40)%Qc) by (apply pow2_lt; lia). qlra.
Qed.
Print Assumptions C19_coarse_grid_refuted.

(** C20 *)
Theorem C20_pos_only_cover_and_minimal : forall fbw r mn mx k i f,
  nearest_even fbw r -> -32 <= r <= 94 -> on_grid r mx -> (mx < pow2 32)%Qc ->
  bits_exact_elem true mn mx fbw = (k, i, f) ->
  ((mx <= qz 0)%Qc /\ k = 0 /\ i = 0 /\ f = 0) \/
  ((qz 0 < mx)%Qc /\ k = 0 /\ f = r /\ 0 < i + f /\
   (forall v, on_grid r v -> (v <= mx)%Qc -> fits k i f (qmax v (qz 0))) /\
   (forall i', fits 0 i' f mx -> i <= i')).
Proof. exact bits_pos_cover_minimal. Qed.
Print Assumptions C20_pos_only_cover_and_minimal.

Example C20_ex : bits_exact_elem true (qz (-9)) (Q2Qc (7 # 2)) (qz 1) = (0, 2, 1) /\
  bits_exact_elem true (qz (-9)) (qz 4) (qz 1) = (0, 3, 1) /\ bits_exact_elem true (qz (-9)) (qz (-4)) (qz 1) = (0, 0, 0).
Proof. repeat split; vm_compute; reflexivity. Qed.

(** C22: exact arithmetic: at most 31 fractional bits, magnitude below 2^64. *)
Theorem C22_weight_bits_exact_and_minimal : forall arr n w t,
  (forall w, In w arr -> on_grid 31 w /\ (qabs w < pow2 64)%Qc) ->
  nth_error arr n = Some w -> nth_error (get_arr_bits (fun a => a) arr) n = Some t ->
  (w = qz 0 -> t = (0, 0, 0)) /\
  (w <> qz 0 -> exists k i f, t = (k, i, f) /\ (k = 1 <-> (w < qz 0)%Qc) /\ fits k i f w /\
     (forall i', (qabs w < pow2 i')%Qc -> i <= i') /\ (forall f', on_grid f' w -> f <= f')).
Proof.
  intros arr n w t H Hn Ht.
  assert (A : arr_ok (fun a => a) arr).
  { intros v Hv. destruct (H v Hv) as [[a G] B]. split; [|split; [assumption|split; [|split]]].
    - exists (2 * a). rewrite G, qz_mul. change (qz 2) with (pow2 1). rewrite (Qcmult_comm (pow2 1)), <- Qcmult_assoc, <- pow2_add. reflexivity.
    - intros C. assert (G' : on_grid 31 (qabs v)) by (apply grid_abs; exists a; assumption).
      rewrite C in G'. pose proof (grid_pos_ge _ _ G' (pow2_pos _)) as X. apply pow2_le_inv in X. lia.
    - qlra.
    - pose proof (qabs_nonneg (v * pow2 32)%Qc). qlra. }
  destruct (arr_bits_spec _ arr n w t A Hn Ht) as [H0 H1]. split; [assumption|]. intros NZ.
  destruct (H1 NZ) as [i [f [-> [G [L [Mi [_ [Mf _]]]]]]]]. eexists _, i, f. split; [reflexivity|]. split; [|split; [|split]].
  - destruct (qltb_spec w (qz 0)); split; intros; try assumption; try reflexivity; try discriminate. exfalso; qlra.
  - split; [assumption|]. destruct (qabs_spec w) as [[P E]|[P E]]; rewrite E in L; destruct (qltb_spec w (qz 0)) as [S|S]; try (exfalso; qlra).
    + replace (qz 0 * pow2 i)%Qc with (qz 0) by (change (qz 0) with 0%Qc; ring). split; qlra.
    + replace (qz 1 * pow2 i)%Qc with (pow2 i) by (change (qz 1) with 1%Qc; ring). pose proof (pow2_pos i). split; qlra.
  - exact Mi.
  - apply Mf. reflexivity.
Qed.
Print Assumptions C22_weight_bits_exact_and_minimal.

(** C22: with a rounded addition on line 45 (any rounding with x <= fl(x+1) <= 2(x+1)),
    the format is still exact and at most one fractional bit too wide. *)
Theorem C22_weight_bits_rounded : forall fl arr n w t,
  (forall w, In w arr -> on_grid 32 w /\ (qabs w < pow2 64)%Qc /\ qabs w <> pow2 (-32) /\
    (qabs (w * pow2 32) <= fl (qabs (w * pow2 32) + qz 1))%Qc /\
    (fl (qabs (w * pow2 32) + qz 1) <= qz 2 * (qabs (w * pow2 32) + qz 1))%Qc) ->
  nth_error arr n = Some w -> nth_error (get_arr_bits fl arr) n = Some t ->
  (w = qz 0 -> t = (0, 0, 0)) /\
  (w <> qz 0 -> exists k i f, t = (k, i, f) /\ on_grid f w /\ (qabs w < pow2 i)%Qc /\
     (forall i', (qabs w < pow2 i')%Qc -> i <= i') /\ (forall f', on_grid f' w -> f - 1 <= f')).
Proof.
  intros fl arr n w t H Hn Ht. destruct (arr_bits_spec fl arr n w t H Hn Ht) as [H0 H1]. split; [assumption|].
  intros NZ. destruct (H1 NZ) as [i [f [-> [G [L [Mi [Mf _]]]]]]]. eexists _, i, f. split; [reflexivity|]. auto.
Qed.
Print Assumptions C22_weight_bits_rounded.

Example C22_ex : get_arr_bits (fun a => a) [qz 12; Q2Qc (-5 # 8); qz 0; Q2Qc (1 # 2); qz 16]
  = [(0, 4, -2); (1, 0, 3); (0, 0, 0); (0, 0, 1); (0, 5, -4)].
Proof. vm_compute. reflexivity. Qed.

(** C22: float32 reports one extra bit for the largest power of two. *)
Theorem C22_minimal_in_float32_refuted : exists arr w k i f,
  nth_error arr 0 = Some w /\ nth_error (get_arr_bits rn24 arr) 0 = Some (k, i, f) /\ on_grid (f - 1) w.
Proof. exists [qz 1], (qz 1), 0, 1, 1. split; [reflexivity|]. split; [vm_compute; reflexivity|]. exists 1. qvm. Qed.
Print Assumptions C22_minimal_in_float32_refuted.

(** C22: a weight of 32 fractional bits, +-2^-32, is reported as zero bits. *)
Theorem C22_finest_weight_refuted : exists w, w <> qz 0 /\ on_grid 32 w /\
  get_arr_bits (fun a => a) [w] = [(0, 0, 0)].
Proof.
  exists (pow2 (-32)). split; [intros H; vm_compute in H; discriminate|]. split; [exists 1; qvm|]. vm_compute. reflexivity.
Qed.
Print Assumptions C22_finest_weight_refuted.

(** C23: activations: exact <= trained <= exact + 1, with the extra bit exactly for ranges [-2^m, <2^m). *)
Theorem C23_activation_bits_over_approximate : forall fbw r mn mx,
  nearest_even fbw r -> -32 <= r <= 94 ->
  on_grid r mn -> on_grid r mx -> (mn <= mx)%Qc -> (- pow2 32 <= mn)%Qc -> (mx < pow2 32)%Qc ->
  let b := act_bw_elem false mn mx fbw in let e := act_bw_exact_elem false mn mx fbw in
  e <= b <= e + 1 /\ (b = e + 1 <-> exists m, mn = (- pow2 m)%Qc /\ (mx < pow2 m)%Qc).
Proof. intros. apply (act_bw_bounds fbw r); try assumption. apply nearest_even_fun; assumption. Qed.
Print Assumptions C23_activation_bits_over_approximate.

(** C23: with ReLU the two agree. *)
Theorem C23_relu_bits_agree : forall fbw r mn mx, nearest_even fbw r -> -32 <= r <= 94 -> on_grid r mx -> (mx < pow2 32)%Qc ->
  act_bw_elem true mn mx fbw = act_bw_exact_elem true mn mx fbw.
Proof. intros. apply (act_bw_relu fbw r); try assumption. apply nearest_even_fun; assumption. Qed.
Print Assumptions C23_relu_bits_agree.

(** C23: kernels, exact arithmetic, one bitwidth per weight. *)
Theorem C23_kernel_bits_over_approximate : forall arr n w t fbw r,
  (forall w, In w arr -> on_grid 31 w /\ (qabs w < pow2 64)%Qc) -> nth_error arr n = Some w ->
  nth_error (kernel_bw_exact (fun a => a) arr) n = Some t -> nearest_even fbw r -> on_grid r w ->
  t <= kernel_bw_elem w fbw.
Proof.
  intros arr n w t fbw r H Hn Ht Hr Hg.
  assert (A : arr_ok (fun a => a) arr).
  { intros v Hv. destruct (H v Hv) as [[a G] B]. split; [|split; [assumption|split; [|split]]].
    - exists (2 * a). rewrite G, qz_mul. change (qz 2) with (pow2 1). rewrite (Qcmult_comm (pow2 1)), <- Qcmult_assoc, <- pow2_add. reflexivity.
    - intros C. assert (G' : on_grid 31 (qabs v)) by (apply grid_abs; exists a; assumption).
      rewrite C in G'. pose proof (grid_pos_ge _ _ G' (pow2_pos _)) as X. apply pow2_le_inv in X. lia.
    - qlra.
    - pose proof (qabs_nonneg (v * pow2 32)%Qc). qlra. }
  apply (kernel_bw_bound (fun a => a) arr n w t fbw r A); try assumption; [reflexivity|]. apply nearest_even_fun; assumption.
Qed.
Print Assumptions C23_kernel_bits_over_approximate.

(** C23: in float32 the exact kernel bitwidth can exceed the trained one. *)
Theorem C23_kernel_bits_float32_refuted : exists w, kernel_bw_exact rn24 [w] = [2] /\ kernel_bw_elem w (qz 0) = 1.
Proof. exists (qz 1). split; vm_compute; reflexivity. Qed.
Print Assumptions C23_kernel_bits_float32_refuted.

Example C23_ex :
  (act_bw_elem false (qz (-4)) (qz 3) (qz 0), act_bw_exact_elem false (qz (-4)) (qz 3) (qz 0)) = (4, 3) /\
  (act_bw_elem false (qz (-5)) (qz 3) (qz 0), act_bw_exact_elem false (qz (-5)) (qz 3) (qz 0)) = (4, 4) /\
  (act_bw_elem true (qz (-5)) (qz 3) (qz 0), act_bw_exact_elem true (qz (-5)) (qz 3) (qz 0)) = (2, 2) /\
  (kernel_bw_elem (qz 12) (qz 0), kernel_bw_exact (fun a => a) [qz 12]) = (4, [2]).
Proof. repeat split; vm_compute; reflexivity. Qed.
