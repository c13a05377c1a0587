(** Proofs for C97: all modes of the proxy quantizer in single precision. *)
From Coq Require Import ZArith QArith Qcanon List Bool String Lia.
From Verif Require Import Base.Num Base.NumFacts Base.Tensor Model.FixedPoint Model.Float32 Model.FloatModes Spec.Fixed Spec.Float Spec.FloatModes
  Proofs.FixedPointP Proofs.TensorP Proofs.Float32P Proofs.Float32Q.
Import ListNotations.
Local Open Scope Z_scope.

(** ** Rounding *)
Lemma half_pos : (qz 0 < below_half)%Qc.
Proof. vm_compute. reflexivity. Qed.
Lemma qabs_nonneg x : (qz 0 <= qabs x)%Qc.
Proof. destruct (qabs_spec x) as [[? ->]|[? ->]]; qlra. Qed.
Lemma qabs_of_opp x : qabs (- x)%Qc = qabs x.
Proof. destruct (qabs_spec x) as [[? ->]|[? ->]]; destruct (qabs_spec (- x)%Qc) as [[? ->]|[? ->]]; qlra. Qed.
Lemma qabs_of_abs x : qabs (qabs x) = qabs x.
Proof. destruct (qabs_spec (qabs x)) as [[? ->]|[? ->]]; [reflexivity|]. pose proof (qabs_nonneg x). qlra. Qed.
Lemma float_abs x : float32 x -> float32 (qabs x).
Proof. intros H. destruct (qabs_spec x) as [[? ->]|[? ->]]; [exact H|apply float_opp, H]. Qed.
Lemma small_23 s : (qabs s < pow2 22)%Qc -> (qabs s < pow2 23)%Qc.
Proof. intros H. eapply Qclt_trans; [exact H|]. vm_compute. reflexivity. Qed.

Lemma rnd_small R rnd rnd32 t : RND_MAP R = Some rnd -> RND_ALL32 R = Some rnd32 -> float32 t -> (qabs t < pow2 22)%Qc -> ~ half_case R t -> rnd32 t = rnd t.
Proof.
  intros H H32 F B N. apply small_23 in B. pose proof half_pos as HP. apply rnd_map_cases in H.
  destruct H as [H|[H|[H|[H|[H|[H|H]]]]]]; destruct H as [-> ->]; cbn in H32; injection H32 as <-; try reflexivity.
  - unfold RND32, RND. rewrite floor_half_small; [reflexivity|exact F|exact B|]. intros E. apply N. left. auto.
  - unfold RND_ZERO32, RND_ZERO. cbv zeta. rewrite floor_half_small; [reflexivity|apply float_opp, float_abs, F|rewrite qabs_of_opp, qabs_of_abs; exact B|].
    intros E. pose proof (qabs_nonneg t) as P. change pred_half with below_half in E. qlra.
  - unfold RND_MIN_INF32, RND_MIN_INF. rewrite floor_half_small; [reflexivity|apply float_opp, F|rewrite qabs_of_opp; exact B|].
    intros E. apply N. right. split; [auto|]. change pred_half with below_half in E. rewrite <- E. ring.
  - unfold RND_INF32, RND_INF. cbv zeta. rewrite floor_half_small; [reflexivity|apply float_abs, F|rewrite qabs_of_abs; exact B|].
    intros E. apply N. change pred_half with below_half in E. destruct (qabs_spec t) as [[? E']|[? E']]; rewrite E' in E; [left; auto|right]. split; [auto|]. rewrite <- E. ring.
Qed.

Lemma near_upper u : (qz (2 ^ 22) <= u)%Qc -> 2 ^ 22 <= qfloor (rn32 (u + qhalf)).
Proof.
  intros H. assert (R : (qz (2 ^ 22) <= rn32 (u + qhalf))%Qc) by (apply rn32_ge; [apply float_qz; lia|generalize dependent (qz (2 ^ 22)); intros; qlra]).
  rewrite <- (qfloor_qz (2 ^ 22)). apply qfloor_mono. exact R.
Qed.
Lemma near_lower u : (u <= qz (- 2 ^ 22))%Qc -> qfloor (rn32 (u + qhalf)) <= - 2 ^ 22.
Proof.
  intros H. assert (F : float32 (qz (- 2 ^ 22) + qhalf)%Qc) by (replace (qz (- 2 ^ 22) + qhalf)%Qc with (qz (- 2 ^ 23 + 1) * pow2 (-1))%Qc by (apply Qc_is_canon; vm_compute; reflexivity); apply float_grid; lia).
  assert (R : (rn32 (u + qhalf) <= qz (- 2 ^ 22) + qhalf)%Qc) by (apply rn32_le; [exact F|generalize dependent (qz (- 2 ^ 22)); intros; qlra]).
  replace (- 2 ^ 22) with (qfloor (qz (- 2 ^ 22) + qhalf)) by (vm_compute; reflexivity). apply qfloor_mono. exact R.
Qed.

Definition outside (m m' : Z) : Prop := 2 ^ 22 <= m /\ 2 ^ 22 <= m' \/ m <= - 2 ^ 22 /\ m' <= - 2 ^ 22.
Lemma rnd_big R rnd rnd32 t : RND_MAP R = Some rnd -> RND_ALL32 R = Some rnd32 -> (pow2 22 <= qabs t)%Qc ->
  exists m m', rnd32 t = qz m /\ rnd t = qz m' /\ outside m m'.
Proof.
  intros H H32 B. rewrite (pow2_Z 22) in B by lia. destruct (rnd_spec R rnd t H) as [m' [E' S']].
  assert (HR : In R rounding_names) by (apply rnd_map_some; eauto).
  assert (C : (qz (2 ^ 22) <= t)%Qc /\ qsign t = qz 1 /\ qabs t = t /\ 2 ^ 22 <= m' \/ (t <= qz (- 2 ^ 22))%Qc /\ qsign t = qz (-1) /\ qabs t = (- t)%Qc /\ m' <= - 2 ^ 22).
  { assert (P : (qz 0 < qz (2 ^ 22))%Qc) by (apply qz_lt; lia). assert (O : qz (- 2 ^ 22) = (- qz (2 ^ 22))%Qc) by apply qz_opp.
    destruct (qabs_spec t) as [[Ht A]|[Ht A]]; rewrite A in B; [left|right].
    - split; [exact B|]. split; [destruct (qsign_spec t) as [[S ->]|[[S ->]|[S ->]]]; [reflexivity|exfalso; qlra|exfalso; rewrite S in B; qlra]|]. split; [exact A|].
      exact (rounds_to_mono R (qz (2 ^ 22)) t _ _ B (rounds_to_qz R _ HR) S').
    - assert (B' : (t <= qz (- 2 ^ 22))%Qc) by (rewrite O; generalize dependent (qz (2 ^ 22)); intros; qlra).
      split; [exact B'|]. split; [destruct (qsign_spec t) as [[S ->]|[[S ->]|[S ->]]]; [exfalso; qlra|reflexivity|exfalso; rewrite S in Ht; qlra]|]. split; [exact A|].
      exact (rounds_to_mono R t (qz (- 2 ^ 22)) _ _ B' S' (rounds_to_qz R _ HR)). }
  assert (M : exists m, rnd32 t = qz m /\ (2 ^ 22 <= m' -> (qz (2 ^ 22) <= t)%Qc -> 2 ^ 22 <= m) /\ (m' <= - 2 ^ 22 -> (t <= qz (- 2 ^ 22))%Qc -> m <= - 2 ^ 22)).
  { assert (OP : forall u v, (u <= v)%Qc -> (- v <= - u)%Qc) by (intros u v L; qlra).
    assert (O : qz (- 2 ^ 22) = (- qz (2 ^ 22))%Qc) by apply qz_opp.
    apply rnd_map_cases in H.
    destruct H as [H|[H|[H|[H|[H|[H|H]]]]]]; destruct H as [-> ->]; cbn in H32; injection H32 as <-; try (exists m'; split; [exact E'|]; split; intros; assumption).
    - eexists. split; [reflexivity|]. split; intros _ T; [apply near_upper, T|apply near_lower, T].
    - unfold RND_ZERO32. destruct C as [(T & -> & -> & _)|(T & -> & -> & _)].
      + exists (- qfloor (rn32 (- t + qhalf))). split; [rewrite qz_opp; change (qz 1) with 1%Qc; ring|]. pose proof (near_lower (- t)%Qc) as NL. rewrite O in NL. specialize (NL (OP _ _ T)). split; intros ? T'; [lia|]. exfalso.
        assert (X : (qz (2 ^ 22) <= qz (- 2 ^ 22))%Qc) by (eapply Qcle_trans; eassumption). apply (proj1 (qz_le _ _)) in X. lia.
      + exists (qfloor (rn32 (- - t + qhalf))). split; [change (qz (-1)) with (- (1))%Qc; ring|]. replace (- - t)%Qc with t by ring. pose proof (near_lower t T) as NL. split; intros ? T'; [|lia]. exfalso.
        assert (X : (qz (2 ^ 22) <= qz (- 2 ^ 22))%Qc) by (eapply Qcle_trans; eassumption). apply (proj1 (qz_le _ _)) in X. lia.
    - exists (- qfloor (rn32 (- t + qhalf))). split; [unfold RND_MIN_INF32; rewrite qz_opp; reflexivity|]. split; intros _ T.
      + pose proof (near_lower (- t)%Qc) as NL. rewrite O in NL. specialize (NL (OP _ _ T)). lia.
      + pose proof (near_upper (- t)%Qc) as NL. rewrite O in T. apply OP in T. replace (- - qz (2 ^ 22))%Qc with (qz (2 ^ 22)) in T by ring. specialize (NL T). lia.
    - unfold RND_INF32. destruct C as [(T & -> & -> & _)|(T & -> & -> & _)].
      + exists (qfloor (rn32 (t + qhalf))). split; [change (qz 1) with 1%Qc; ring|]. pose proof (near_upper t T) as NL. split; intros ? T'; [lia|]. exfalso.
        assert (X : (qz (2 ^ 22) <= qz (- 2 ^ 22))%Qc) by (eapply Qcle_trans; eassumption). apply (proj1 (qz_le _ _)) in X. lia.
      + exists (- qfloor (rn32 (- t + qhalf))). split; [rewrite qz_opp; change (qz (-1)) with (- (1))%Qc; ring|]. pose proof (near_upper (- t)%Qc) as NL.
        assert (T2 : (qz (2 ^ 22) <= - t)%Qc) by (pose proof T as T2; rewrite O in T2; apply OP in T2; replace (- - qz (2 ^ 22))%Qc with (qz (2 ^ 22)) in T2 by ring; exact T2).
        specialize (NL T2). split; intros ? T'; [|lia]. exfalso. assert (X : (qz (2 ^ 22) <= qz (- 2 ^ 22))%Qc) by (eapply Qcle_trans; eassumption). apply (proj1 (qz_le _ _)) in X. lia. }
  destruct M as (m & Em & M1 & M2). exists m, m'. split; [exact Em|]. split; [exact E'|]. destruct C as [(T & _ & _ & L)|(T & _ & _ & L)]; [left|right]; auto.
Qed.

(** ** Overflow *)
Lemma SAT_SYM32_exact x k b : 0 <= k <= 1 -> k <= b <= 24 -> SAT_SYM32 x k b = SAT_SYM x k b.
Proof.
  intros Hk Hb. destruct (bounds32 k b Hk Hb) as [E1 _]. unfold SAT_SYM32, SAT_SYM. cbv zeta. rewrite E1.
  assert (0 < 2 ^ (b - k) <= 2 ^ 24) by (split; [apply Z.pow_pos_nonneg; lia|apply Z.pow_le_mono_r; lia]).
  rewrite pow2_Z, <- qz_sub by lia. rewrite <- qz_opp, <- qz_mul, rn32_id by (apply float_qz; nia). reflexivity.
Qed.
Lemma SAT_ZERO32_exact x k b : 0 <= k <= 1 -> k <= b <= 24 -> SAT_ZERO32 x k b = SAT_ZERO x k b.
Proof.
  intros Hk Hb. destruct (bounds32 k b Hk Hb) as [E1 _]. unfold SAT_ZERO32, SAT_ZERO. cbv zeta. rewrite E1.
  assert (0 < 2 ^ (b - k) <= 2 ^ 24) by (split; [apply Z.pow_pos_nonneg; lia|apply Z.pow_le_mono_r; lia]).
  rewrite pow2_Z, <- qz_sub by lia. rewrite <- qz_opp, <- qz_sub, (rn32_id (qz (- _ - _))) by (apply float_qz; lia). rewrite <- qz_mul, rn32_id by (apply float_qz; nia). reflexivity.
Qed.
Lemma half_int_float m : - 2 ^ 23 <= m < 2 ^ 23 -> float32 (qz m + qhalf)%Qc.
Proof.
  intros H. replace (qz m + qhalf)%Qc with (qz (2 * m + 1) * pow2 (-1))%Qc; [apply float_grid; lia|].
  rewrite qz_add, qz_mul. replace (pow2 (-1)) with qhalf by (apply Qc_is_canon; vm_compute; reflexivity). qlra.
Qed.
Lemma WRAP_SM32_exact r k b : 0 <= k <= 1 -> k <= b <= 22 -> - 2 ^ 22 <= r <= 2 ^ 22 -> WRAP_SM32 (qz r) k b = WRAP_SM (qz r) k b.
Proof.
  intros Hk Hb Hr. assert (K : k = 0 \/ k = 1) by lia. destruct (bounds32 k b Hk) as [E1 E2]; [lia|]. unfold WRAP_SM32, WRAP_SM. cbv zeta. rewrite E1, E2.
  rewrite (low_qz k b), (high_qz k b) by lia. change (2 ^ (b - k) - 1) with (hi k b). replace (- 2 ^ (b - k) * k) with (lo k b) by (unfold lo; ring).
  pose proof (hi_lo k b K ltac:(lia)) as HL. assert (Pb : 0 < 2 ^ b <= 2 ^ 22) by (split; [apply Z.pow_pos_nonneg; lia|apply Z.pow_le_mono_r; lia]).
  assert (Pk : 0 < 2 ^ (b - k) <= 2 ^ 22) by (split; [apply Z.pow_pos_nonneg; lia|apply Z.pow_le_mono_r; lia]).
  assert (Bl : - 2 ^ 22 <= lo k b <= 0) by (unfold lo; nia). assert (Bh : 0 <= hi k b < 2 ^ 22) by (unfold hi; lia).
  rewrite <- !qz_sub. rewrite (rn32_id (qz (hi k b - lo k b))) by (apply float_qz; lia). rewrite <- !qz_add, HL.
  rewrite (rn32_id (qz (2 ^ b))) by (apply float_qz; lia). rewrite <- !qz_mul. rewrite (rn32_id (qz (2 ^ b * 2))) by (apply float_qz; lia).
  rewrite (rn32_id (qz (r - hi k b))) by (apply float_qz; lia). rewrite <- !qz_sub. rewrite (rn32_id (qz (r - hi k b - 1))) by (apply float_qz; lia).
  rewrite floormod_qz by lia. set (M := (r - hi k b - 1) mod (2 ^ b * 2)). pose proof (Z.mod_pos_bound (r - hi k b - 1) (2 ^ b * 2) ltac:(lia)) as MB. fold M in MB.
  assert (EH : (qz (2 ^ b * 2) * qhalf)%Qc = qz (2 ^ b)) by (rewrite qz_mul; qlra).
  assert (ED : (qz (2 ^ b * 2) / qz 2)%Qc = qz (2 ^ b)) by (rewrite qz_mul; field; discriminate).
  rewrite EH, ED. rewrite (rn32_id (qz (2 ^ b))) by (apply float_qz; lia). rewrite <- !qz_sub. rewrite (rn32_id (qz (M - 2 ^ b))) by (apply float_qz; lia).
  rewrite (rn32_id (qz (M - 2 ^ b) + qhalf)) by (apply half_int_float; lia).
  assert (EA : exists a, (qabs (qz (M - 2 ^ b) + qhalf) - qhalf = qz a)%Qc /\ 0 <= a < 2 ^ b).
  { destruct (Z.le_gt_cases (2 ^ b) M) as [L|L].
    - exists (M - 2 ^ b). assert (qz 0 <= qz (M - 2 ^ b))%Qc by (apply qz_le; lia). split; [|lia]. destruct (qabs_spec (qz (M - 2 ^ b) + qhalf)) as [[? ->]|[? ->]]; qlra.
    - exists (2 ^ b - 1 - M). assert (X : (qz (M - 2 ^ b) <= qz (-1))%Qc) by (apply qz_le; lia). assert (Y : qz (2 ^ b - 1 - M) = (- qz (M - 2 ^ b) - qz 1)%Qc) by (rewrite <- qz_opp, <- qz_sub; f_equal; lia). rewrite Y. split; [|lia]. destruct (qabs_spec (qz (M - 2 ^ b) + qhalf)) as [[? ->]|[? ->]]; qlra. }
  destruct EA as (a & -> & Ba). rewrite (rn32_id (qz a)) by (apply float_qz; lia). rewrite <- qz_add. apply rn32_id, float_qz. lia.
Qed.

Lemma sat_exact S sat sat32 r k b : SAT_MAP S = Some sat -> SAT_ALL32 S = Some sat32 -> 0 <= k <= 1 -> k <= b <= 22 -> - 2 ^ 22 <= r <= 2 ^ 22 ->
  sat32 (qz r) k b = sat (qz r) k b.
Proof.
  intros H H32 Hk Hb Hr. apply sat_map_cases in H. destruct H as [H|[H|[H|[H|H]]]]; destruct H as [-> ->]; cbn in H32; injection H32 as <-.
  - apply SAT32_exact; lia. - apply SAT_ZERO32_exact; lia. - apply SAT_SYM32_exact; lia. - apply WRAP32_exact; lia. - apply WRAP_SM32_exact; lia.
Qed.
Lemma sat_outside S sat sat32 m m' k b : SAT_MAP S = Some sat -> SAT_ALL32 S = Some sat32 -> In S ["SAT"; "SAT_ZERO"; "SAT_SYM"]%string -> 0 <= k <= 1 -> k <= b <= 22 -> outside m m' ->
  sat32 (qz m) k b = sat (qz m') k b.
Proof.
  intros H H32 I Hk Hb O. assert (P : 0 < 2 ^ (b - k) <= 2 ^ 22) by (split; [apply Z.pow_pos_nonneg; lia|apply Z.pow_le_mono_r; lia]). unfold outside in O.
  assert (PL : k = 0 \/ k = 1 /\ 2 ^ (b - k) < 2 ^ 22). { assert (K : k = 0 \/ k = 1) by lia. destruct K as [K|K]; [auto|right; split; [exact K|apply Z.pow_lt_mono_r; lia]]. }
  assert (BL : - 2 ^ 22 < lo k b <= 0 /\ 0 <= hi k b < 2 ^ 22 /\ 0 <= k * hi k b < 2 ^ 22). { unfold lo, hi. destruct PL as [-> |[-> PL]]; lia. }
  apply sat_map_cases in H. destruct H as [H|[H|[H|[H|H]]]]; destruct H as [-> ->]; cbn in H32; injection H32 as <-.
  - rewrite SAT32_exact, !SAT_qz by lia. f_equal. lia.
  - rewrite SAT_ZERO32_exact, !SAT_ZERO_qz by lia. f_equal. destruct O as [[O1 O2]|[O1 O2]].
    + rewrite !(proj2 (Z.leb_gt _ (hi k b))) by lia. reflexivity.
    + rewrite !(proj2 (Z.leb_gt (lo k b) _)) by lia. rewrite !andb_false_r. reflexivity.
  - rewrite SAT_SYM32_exact, !SAT_SYM_qz by lia. f_equal. lia.
  - destruct I as [I|[I|[I|[]]]]; discriminate I.
  - destruct I as [I|[I|[I|[]]]]; discriminate I.
Qed.

(** ** The quantizer *)
Lemma modes_of R S : In R rounding_names -> In S overflow_names -> exists rnd rnd32 sat sat32,
  RND_MAP R = Some rnd /\ RND_ALL32 R = Some rnd32 /\ SAT_MAP S = Some sat /\ SAT_ALL32 S = Some sat32.
Proof.
  intros HR HS. unfold rounding_names, overflow_names in *. cbn in HR, HS.
  assert (A : exists rnd rnd32, RND_MAP R = Some rnd /\ RND_ALL32 R = Some rnd32) by (intuition (subst; cbn; eauto)).
  assert (B : exists sat sat32, SAT_MAP S = Some sat /\ SAT_ALL32 S = Some sat32) by (intuition (subst; cbn; eauto)).
  destruct A as (a & b & A1 & A2), B as (c & d & B1 & B2). eauto 10.
Qed.
Lemma code_div S sat k b n r : SAT_MAP S = Some sat -> 0 <= k <= 1 -> k <= b <= 22 -> -100 <= n <= 100 ->
  rn32 (sat (qz r) k b / pow2 n) = (sat (qz r) k b / pow2 n)%Qc.
Proof.
  intros H Hk Hb Hn. assert (K : k = 0 \/ k = 1) by lia. destruct (sat_code S sat k b r H K ltac:(lia)) as (c & -> & C).
  apply code_iff in C; [|exact K|lia]. assert (P : 0 < 2 ^ (b - k) <= 2 ^ 22) by (split; [apply Z.pow_pos_nonneg; lia|apply Z.pow_le_mono_r; lia]).
  rewrite div_pow2. apply rn32_id, float_grid; [unfold lo, hi in C; nia|lia].
Qed.

Lemma modes_exact x k b i R S : float32 x -> float32 (x * pow2 (b - i))%Qc -> 0 <= k <= 1 -> 1 <= b <= 22 -> -100 <= b - i <= 100 ->
  In R rounding_names -> In S overflow_names -> ~ half_case R (x * pow2 (b - i))%Qc ->
  (qabs (x * pow2 (b - i)) < pow2 22)%Qc \/ In S ["SAT"; "SAT_ZERO"; "SAT_SYM"]%string ->
  exists y, gfixed_float x k b i R S = Ok y /\ gfixed_quantizer x k b i R S = Ok y.
Proof.
  intros Fx Ft Hk Hb Hn HR HS N D. destruct (modes_of R S HR HS) as (rnd & rnd32 & sat & sat32 & R1 & R2 & S1 & S2).
  unfold gfixed_float, gfixed_quantizer. rewrite R1, R2, S1, S2. eexists. split; [|reflexivity]. f_equal. unfold gfixed32, gfixed_elem. cbv zeta.
  rewrite (rn32_id _ Ft). set (t := (x * pow2 (b - i))%Qc) in *. f_equal.
  destruct (rnd_spec R rnd t R1) as (m & Em & Sm). destruct (qltb_spec (qabs t) (pow2 22)) as [B|B].
  - rewrite (rnd_small R rnd rnd32 t R1 R2 Ft B N), Em.
    assert (Bm : - 2 ^ 22 <= m <= 2 ^ 22).
    { rewrite (pow2_Z 22) in B by lia. apply qabs_lt_iff in B. destruct B as [B1 B2]. split.
      - apply (rounds_to_mono R (qz (- 2 ^ 22)) t _ _); [rewrite qz_opp; apply Qclt_le_weak, B1|apply rounds_to_qz, HR|exact Sm].
      - apply (rounds_to_mono R t (qz (2 ^ 22)) _ _); [apply Qclt_le_weak, B2|exact Sm|apply rounds_to_qz, HR]. }
    rewrite (sat_exact S sat sat32 m k b S1 S2 Hk ltac:(lia) Bm). apply (code_div S); [exact S1|lia|lia|lia].
  - destruct D as [D|D]; [exfalso; apply (Qclt_not_le _ _ D B)|]. destruct (rnd_big R rnd rnd32 t R1 R2 B) as (m1 & m2 & E1 & E2 & O). rewrite E1, E2.
    rewrite (sat_outside S sat sat32 m1 m2 k b S1 S2 D Hk ltac:(lia) O). apply (code_div S); [exact S1|lia|lia|lia].
Qed.

Lemma modes_half x b i R S : float32 x -> 2 <= b <= 22 -> -100 <= b - i <= 100 -> In S overflow_names -> half_case R (x * pow2 (b - i))%Qc ->
  gfixed_quantizer x 1 b i R S = Ok (qz 0) /\
  gfixed_float x 1 b i R S = Ok (if qltb (qz 0) x then pow2 (i - b) else - pow2 (i - b))%Qc.
Proof.
  intros Fx Hb Hn HS HC.
  assert (HR : In R rounding_names) by (unfold half_case in HC; unfold rounding_names; cbn; intuition (subst; auto 10)).
  destruct (modes_of R S HR HS) as (rnd & rnd32 & sat & sat32 & R1 & R2 & S1 & S2).
  unfold gfixed_float, gfixed_quantizer. rewrite R1, R2, S1, S2. unfold gfixed32, gfixed_elem. cbv zeta. set (t := (x * pow2 (b - i))%Qc) in *.
  assert (P2 : 2 <= 2 ^ (b - 1)) by (change 2 with (2 ^ 1) at 1; apply Z.pow_le_mono_r; lia).
  assert (T : (t = below_half /\ (qz 0 < x)%Qc) \/ (t = (- below_half)%Qc /\ (x <= qz 0)%Qc)).
  { pose proof half_pos as HP. pose proof (pow2_pos (b - i)) as PP. unfold half_case in HC. destruct HC as [[_ E]|[_ E]]; [left|right]; (split; [exact E|]); unfold t in E.
    - destruct (qltb_spec (qz 0) x) as [L|L]; [exact L|]. exfalso. assert (x * pow2 (b - i) <= qz 0)%Qc by (clear - L PP; generalize dependent (pow2 (b - i)); intros; qnra). rewrite <- E in HP. qlra.
    - destruct (qltb_spec (qz 0) x) as [L|L]; [|exact L]. exfalso. assert (qz 0 <= x * pow2 (b - i))%Qc by (clear - L PP; generalize dependent (pow2 (b - i)); intros; qnra). rewrite E in H. qlra. }
  assert (Ft : rn32 t = t) by (destruct T as [[-> _]|[-> _]]; apply Qc_is_canon; vm_compute; reflexivity). rewrite Ft.
  assert (E0 : rnd t = qz 0 /\ rnd32 t = qz (if qltb (qz 0) x then 1 else -1)).
  { apply rnd_map_cases in R1. destruct T as [[E L]|[E L]].
    - rewrite (proj2 (qltb_true _ _) L), E. unfold half_case in HC. rewrite E in HC.
      destruct HC as [[HC _]|[_ HC]]; [|exfalso; apply (f_equal this) in HC; vm_compute in HC; discriminate HC].
      destruct HC as [-> | ->]; cbn in R2; injection R2 as <-; destruct R1 as [H|[H|[H|[H|[H|[H|H]]]]]]; destruct H as [H ->]; try discriminate H; split; apply Qc_is_canon; vm_compute; reflexivity.
    - rewrite (proj2 (qltb_false _ _) L), E. unfold half_case in HC. rewrite E in HC.
      destruct HC as [[_ HC]|[HC _]]; [exfalso; apply (f_equal this) in HC; vm_compute in HC; discriminate HC|].
      destruct HC as [-> | ->]; cbn in R2; injection R2 as <-; destruct R1 as [H|[H|[H|[H|[H|[H|H]]]]]]; destruct H as [H ->]; try discriminate H; split; apply Qc_is_canon; vm_compute; reflexivity. }
  destruct E0 as [-> ->]. destruct (Z.eqb_spec b 0); [lia|].
  rewrite (sat_id S sat 1 b 0 S1); [|auto|lia|right; split; [reflexivity|lia]|intros; lia].
  split; [f_equal; rewrite qz_0; unfold Qcdiv; ring|]. f_equal.
  rewrite (sat_exact S sat sat32 _ 1 b S1 S2) by (destruct (qltb (qz 0) x); lia). rewrite (code_div S sat 1 b (b - i) _ S1) by lia.
  rewrite (sat_id S sat 1 b _ S1); [|auto|lia|right; split; [reflexivity|destruct (qltb (qz 0) x); lia]|intros; destruct (qltb (qz 0) x); lia].
  rewrite div_pow2. replace (- (b - i)) with (i - b) by lia. destruct (qltb (qz 0) x); [change (qz 1) with 1%Qc|change (qz 1) with 1%Qc; change (qz (-1)) with (- (1))%Qc]; ring.
Qed.

Lemma fpq_call_float_batch {O} (q : fpq O) n s x :
  shape (cfgs q) = (1 :: s)%nat -> shape x = (n :: s)%nat -> In (rnd_name q) rounding_names -> In (sat_name q) overflow_names ->
  exists y, fpq_call_float q false x = Ok y /\ shape y = (n :: s)%nat /\ wf_tensor y /\
    forall j p d, (j < n)%nat -> (p < prodn s)%nat -> let c := nth p (data (cfgs q)) (mkCfg 0 0 0) in
      gfixed_float (nth (j * prodn s + p) (data x) (qz 0)) (kn c) (bits c) (ints c) (rnd_name q) (sat_name q) = Ok (nth (j * prodn s + p) (data y) d).
Proof.
  intros Hc Hx HR HS. destruct (modes_of _ _ HR HS) as (rnd & rnd32 & sat & sat32 & R1 & R2 & S1 & S2).
  unfold fpq_call_float, gfixed_float. rewrite R2, S2.
  destruct (bmap2_batch (qz 0) (mkCfg 0 0 0) (fun v c => gfixed32 rnd32 sat32 (kn c) (bits c) (ints c) v) n s x (cfgs q) Hx Hc) as [y [E [Sy [W H]]]].
  exists y. repeat split; try assumption. intros j p d Hj Hp. cbv zeta. rewrite (H j p d Hj Hp). reflexivity.
Qed.

Lemma gfixed_float_zero_bits x k i R S y : gfixed_float x k 0 i R S = Ok y -> y = qz 0.
Proof.
  unfold gfixed_float. destruct (RND_ALL32 R); [|discriminate]. destruct (SAT_ALL32 S); [|discriminate]. intros H. injection H as <-.
  unfold gfixed32. cbv zeta. rewrite Z.eqb_refl. rewrite qz_0. ring.
Qed.
