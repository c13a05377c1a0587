(** Storing a value in an intermediate format before quantizing it. *)
From Coq Require Import ZArith Qcanon List Bool String Lia.
From Verif Require Import Base.Num Base.NumFacts Base.Tensor Model.FixedPoint Model.Precision Spec.Fixed Spec.Precision Proofs.FixedPointP Proofs.FixedPointLayerP Proofs.FitsP Proofs.PrecisionP Proofs.SoundP Proofs.ReduceP.
Import ListNotations.
Open Scope Z_scope.

Definition guard_ok (R : string) (f fq : Z) : Prop := (R = "TRN"%string /\ fq <= f) \/ (R = "RND"%string /\ fq + 1 <= f).
(** Half a unit of 2^-fq in units of 2^-f, for RND. *)
Definition half (R : string) (d : Z) : Z := if String.eqb R "RND" then 2 ^ (d - 1) else 0.

Lemma rnd_iff v n : rounds_to "RND" v n <-> (qz n <= v + qhalf)%Qc /\ (v + qhalf < qz n + qz 1)%Qc.
Proof.
  assert (F : (qz n <= v + qhalf)%Qc /\ (v + qhalf < qz n + qz 1)%Qc -> RND v = qz n).
  { intros [A B]. unfold RND. f_equal. apply qfloor_unique; [exact A|exact B]. }
  split.
  - intros H. destruct (RND_spec v) as [n' [E H']]. pose proof (rounds_to_fun _ _ _ _ H H') as ->. unfold RND in E. apply qz_inj in E. subst n'.
    pose proof (qfloor_le (v + qhalf)%Qc). pose proof (qfloor_lt (v + qhalf)%Qc) as L. split; assumption.
  - intros H. apply F in H. destruct (RND_spec v) as [n' [E H']]. rewrite H in E. apply qz_inj in E. subst. exact H'.
Qed.
Lemma trn_iff v n : rounds_to "TRN" v n <-> (qz n <= v)%Qc /\ (v < qz n + qz 1)%Qc.
Proof.
  split; [|intros [A B]; left; auto]. intros [H|[H|[H|[H|[H|[H|H]]]]]]; destruct H as [E H]; try discriminate. exact H.
Qed.

Lemma round_code R f fq y n m : guard_ok R f fq -> rounds_to "TRN" (y * pow2 f)%Qc m -> rounds_to R (y * pow2 fq)%Qc n -> n = (m + half R (f - fq)) / 2 ^ (f - fq).
Proof.
  intros G Hm Hn. apply trn_iff in Hm as [M1 M2]. set (d := f - fq) in *.
  assert (Hd : 0 <= d) by (destruct G as [[_ G]|[_ G]]; lia). assert (Pd : 0 < 2 ^ d) by (apply Z.pow_pos_nonneg; lia).
  assert (Q : (qz (n * 2 ^ d) <= y * pow2 f + qz (half R d))%Qc /\ (y * pow2 f + qz (half R d) < qz ((n + 1) * 2 ^ d))%Qc).
  { assert (E : (y * pow2 f = y * pow2 fq * pow2 d)%Qc) by (rewrite <- Qcmult_assoc, <- pow2_add; f_equal; f_equal; lia).
    rewrite !qz_mul, <- pow2_Z by exact Hd. rewrite E. pose proof (pow2_pos d) as P. destruct G as [[-> G]|[-> G]]; unfold half; cbn [String.eqb Ascii.eqb Bool.eqb].
    - apply trn_iff in Hn as [A B]. rewrite qz_0. split.
      + rewrite Qcplus_0_r. apply qmul_le_r; [qlra|exact A].
      + rewrite Qcplus_0_r. apply qmul_lt_r; [exact P|rewrite qz_add; exact B].
    - apply rnd_iff in Hn as [A B].
      assert (Eh : qz (2 ^ (d - 1)) = (qhalf * pow2 d)%Qc).
      { rewrite <- pow2_Z by lia. change qhalf with (pow2 (-1)). rewrite <- pow2_add. f_equal. lia. }
      rewrite Eh. replace (y * pow2 fq * pow2 d + qhalf * pow2 d)%Qc with ((y * pow2 fq + qhalf) * pow2 d)%Qc by ring. split.
      + apply qmul_le_r; [qlra|exact A].
      + apply qmul_lt_r; [exact P|rewrite qz_add; exact B]. }
  destruct Q as [Q1 Q2]. apply (Z.div_unique _ _ n (m + half R d - n * 2 ^ d)); [|ring]. left. 
  assert (A : n * 2 ^ d - half R d <= m).
  { assert (X : (qz (n * 2 ^ d - half R d) < qz (m + 1))%Qc) by (rewrite qz_sub, qz_add; qlra). apply (proj1 (qz_lt _ _)) in X. lia. }
  assert (B : m + half R d < (n + 1) * 2 ^ d).
  { assert (X : (qz (m + half R d) < qz ((n + 1) * 2 ^ d))%Qc) by (rewrite qz_add; qlra). apply (proj1 (qz_lt _ _)) in X. lia. }
  lia.
Qed.

(** A stored value. *)
Lemma stored_code y k i f S : In S overflow_names -> k = 0 \/ k = 1 -> 0 <= i + f ->
  exists m, rounds_to "TRN" (y * pow2 f)%Qc m /\ gfixed_quantizer y k (k + i + f) (k + i) "TRN" S = Ok (qz (ovf S k (k + i + f) m) * pow2 (- f))%Qc.
Proof.
  intros HS Hk Hw. destruct (gfixed_ovf y k (k + i + f) (k + i) "TRN" S) as [m [A B]]; auto; [cbn; auto|lia|].
  replace (k + i + f - (k + i)) with f in A by lia. replace (k + i - (k + i + f)) with (- f) in B by lia. eauto.
Qed.
Lemma code_scaled m f : (qz m * pow2 (- f) * pow2 f)%Qc = qz m.
Proof. rewrite <- Qcmult_assoc, <- pow2_add. replace (- f + f) with 0 by lia. change (pow2 0) with 1%Qc. ring. Qed.

(** Wrap-around storage followed by wrap-around quantization. *)
Lemma via_wrap R y z k i f kq bq iq : (k = 0 \/ k = 1) -> (kq = 0 \/ kq = 1) -> kq <= bq -> 0 <= i + f -> guard_ok R f (bq - iq) -> iq <= k + i ->
  gfixed_quantizer y k (k + i + f) (k + i) "TRN" "WRAP" = Ok z ->
  gfixed_quantizer z kq bq iq R "WRAP" = gfixed_quantizer y kq bq iq R "WRAP".
Proof.
  intros Hk Hkq Hb Hw G Hi E. set (fq := bq - iq) in *.
  assert (HW : In "WRAP"%string overflow_names) by (cbn; auto). assert (HR : In R rounding_names) by (destruct G as [[-> _]|[-> _]]; cbn; auto).
  destruct (stored_code y k i f "WRAP" HW Hk Hw) as [m [Hm Es]]. rewrite E in Es. assert (Ez : z = (qz (ovf "WRAP" k (k + i + f) m) * pow2 (- f))%Qc) by congruence.
  destruct (gfixed_ovf z kq bq iq R "WRAP" HR HW Hkq Hb) as [n' [Hn' ->]]. destruct (gfixed_ovf y kq bq iq R "WRAP" HR HW Hkq Hb) as [n [Hn ->]].
  f_equal. f_equal. f_equal. fold fq in Hn, Hn'.
  assert (Hm' : rounds_to "TRN" (z * pow2 f)%Qc (ovf "WRAP" k (k + i + f) m)) by (rewrite Ez, code_scaled; apply rounds_to_qz; cbn; auto).
  pose proof (round_code R f fq y n m G Hm Hn) as En. pose proof (round_code R f fq z n' _ G Hm' Hn') as En'.
  assert (P : 0 < 2 ^ (k + i + f)) by (apply Z.pow_pos_nonneg; destruct Hk; lia).
  set (d := f - fq) in *. assert (Hd : 0 <= d) by (destruct G as [[_ G]|[_ G]]; lia). assert (Pd : 0 < 2 ^ d) by (apply Z.pow_pos_nonneg; lia).
  assert (T : exists t, ovf "WRAP" k (k + i + f) m = m + t * 2 ^ (k + i + f)).
  { unfold ovf. set (l := lo k (k + i + f)). exists (- ((m - l) / 2 ^ (k + i + f))). pose proof (Z.div_mod (m - l) (2 ^ (k + i + f)) ltac:(lia)). lia. }
  destruct T as [t Et]. rewrite Et in En'.
  assert (Hq : 0 <= k + i + fq) by (destruct Hk, Hkq; lia).
  assert (En2 : n' = n + t * 2 ^ (k + i + fq)).
  { rewrite En, En'. rewrite <- Z.div_add by lia. f_equal. assert (X : 2 ^ (k + i + f) = 2 ^ (k + i + fq) * 2 ^ d) by (rewrite <- Z.pow_add_r by lia; f_equal; lia). rewrite X. ring. }
  assert (X : 2 ^ (k + i + fq) = 2 ^ (k + i + fq - bq) * 2 ^ bq) by (rewrite <- Z.pow_add_r by (destruct Hkq; lia); f_equal; lia).
  rewrite En2, X. unfold ovf. f_equal. set (l := lo kq bq). replace (n + t * (2 ^ (k + i + fq - bq) * 2 ^ bq) - l) with (n - l + t * 2 ^ (k + i + fq - bq) * 2 ^ bq) by ring.
  apply Z_mod_plus_full.
Qed.

(** The same for a value on a grid no finer than the quantizer's. *)
Lemma via_wrap_grid R y z k i f kq bq iq : (k = 0 \/ k = 1) -> (kq = 0 \/ kq = 1) -> kq <= bq -> 0 <= i + f -> on_grid f y -> f <= bq - iq -> iq <= k + i -> In R rounding_names ->
  gfixed_quantizer y k (k + i + f) (k + i) "TRN" "WRAP" = Ok z ->
  gfixed_quantizer z kq bq iq R "WRAP" = gfixed_quantizer y kq bq iq R "WRAP".
Proof.
  intros Hk Hkq Hb Hw Gy Lf Hi HR E. set (fq := bq - iq) in *.
  assert (HW : In "WRAP"%string overflow_names) by (cbn; auto).
  destruct (stored_code y k i f "WRAP" HW Hk Hw) as [m [Hm Es]]. rewrite E in Es. assert (Ez : z = (qz (ovf "WRAP" k (k + i + f) m) * pow2 (- f))%Qc) by congruence.
  assert (Ey : y = (qz m * pow2 (- f))%Qc).
  { destruct Gy as [m0 E0]. rewrite E0 in Hm. rewrite code_scaled in Hm. rewrite E0. f_equal. f_equal. eapply rounds_to_fun; [|exact Hm]. apply rounds_to_qz. cbn. auto. }
  destruct (gfixed_ovf z kq bq iq R "WRAP" HR HW Hkq Hb) as [n' [Hn' ->]]. destruct (gfixed_ovf y kq bq iq R "WRAP" HR HW Hkq Hb) as [n [Hn ->]].
  f_equal. f_equal. f_equal. fold fq in Hn, Hn'.
  assert (EX : forall v w u, w = (qz v * pow2 (- f))%Qc -> rounds_to R (w * pow2 fq)%Qc u -> u = v * 2 ^ (fq - f)).
  { intros v w u -> H. eapply rounds_to_fun; [exact H|]. assert (X : (qz v * pow2 (- f) * pow2 fq)%Qc = qz (v * 2 ^ (fq - f))).
    { rewrite qz_mul, <- pow2_Z by lia. rewrite <- Qcmult_assoc, <- pow2_add. f_equal. f_equal. lia. }
    rewrite X. apply rounds_to_qz, HR. }
  apply (EX _ _ _ Ey) in Hn. apply (EX _ _ _ Ez) in Hn'.
  assert (P : 0 < 2 ^ (k + i + f)) by (apply Z.pow_pos_nonneg; destruct Hk; lia).
  assert (T : exists t, ovf "WRAP" k (k + i + f) m = m + t * 2 ^ (k + i + f)).
  { unfold ovf. set (l := lo k (k + i + f)). exists (- ((m - l) / 2 ^ (k + i + f))). pose proof (Z.div_mod (m - l) (2 ^ (k + i + f)) ltac:(lia)). lia. }
  destruct T as [t Et]. rewrite Et in Hn'.
  assert (X : 2 ^ (k + i + f) * 2 ^ (fq - f) = 2 ^ (k + i + fq - bq) * 2 ^ bq) by (rewrite <- !Z.pow_add_r by (destruct Hkq, Hk; lia); f_equal; lia).
  assert (En2 : n' = n + t * 2 ^ (k + i + fq - bq) * 2 ^ bq) by (rewrite Hn, Hn'; rewrite <- Z.mul_assoc, <- X; ring).
  rewrite En2. unfold ovf. f_equal. set (l := lo kq bq). replace (n + t * 2 ^ (k + i + fq - bq) * 2 ^ bq - l) with (n - l + t * 2 ^ (k + i + fq - bq) * 2 ^ bq) by ring.
  apply Z_mod_plus_full.
Qed.

(** Storage without overflow, any quantizer. *)
Lemma via_fit R S y z k i f ky iy fy kq bq iq : (k = 0 \/ k = 1) -> (kq = 0 \/ kq = 1) -> kq <= bq -> 0 <= i + f -> In S overflow_names ->
  fits ky iy fy y -> ky <= k -> 0 <= ky -> (fy <= f /\ iy <= i \/ f < fy /\ iy < i) ->
  (guard_ok R f (bq - iq) \/ fy <= f /\ In R rounding_names) ->
  gfixed_quantizer y k (k + i + f) (k + i) "TRN" "WRAP" = Ok z ->
  gfixed_quantizer z kq bq iq R S = gfixed_quantizer y kq bq iq R S.
Proof.
  intros Hk Hkq Hb Hw HS Fy Lk Pk L G E. 
  assert (HW : In "WRAP"%string overflow_names) by (cbn; auto).
  assert (HR : In R rounding_names) by (destruct G as [[[-> _]|[-> _]]|[_ G]]; [cbn; auto..|exact G]).
  destruct (stored_code y k i f "WRAP" HW Hk Hw) as [m [Hm Es]]. rewrite E in Es. assert (Ez : z = (qz (ovf "WRAP" k (k + i + f) m) * pow2 (- f))%Qc) by congruence.
  assert (P : 0 < 2 ^ (i + f)) by (apply Z.pow_pos_nonneg; lia).
  assert (Bm : - (k * 2 ^ (i + f)) <= m < 2 ^ (i + f)).
  { assert (Hky : ky = 0 \/ ky = 1) by lia.
    destruct L as [[L1 L2]|[L1 L2]].
    - destruct Fy as [Gy [A B]]. 
      assert (F2 : fits k i f y).
      { apply fits_mono with (k := ky) (i := iy) (f := fy); auto; try lia. split; [exact Gy|split; assumption]. }
      destruct (round_exact k i f f "TRN" y m Hk F2 (Z.le_refl f) Hw Hm) as [m0 [_ [B0 E0]]]. replace (f - f) with 0 in E0 by lia. rewrite Z.mul_1_r in E0. lia.
    - destruct (Z_le_dec 0 (iy + f)) as [Q|Q].
      + pose proof (round_coarse ky iy fy f "TRN" y m Hky Fy Q Hm) as B. assert (2 ^ (iy + f) < 2 ^ (i + f)) by (apply Z.pow_lt_mono_r; lia).
        assert (0 < 2 ^ (iy + f)) by (apply Z.pow_pos_nonneg; lia). destruct Hky as [E0|E0], Hk as [E1|E1]; rewrite E0, E1 in *; lia.
      + assert (Q2 : iy + f <= -1) by lia. apply trn_iff in Hm as [M1 M2]. destruct (scaled_bounds ky iy fy f y Hky Fy) as [A B].
        assert (LE : (pow2 (iy + f) <= qhalf)%Qc) by (change qhalf with (pow2 (-1)); apply pow2_le; lia).
        assert (Q3 : (qhalf + qhalf = qz 1)%Qc) by (apply Qc_is_canon; reflexivity). pose proof (pow2_pos (iy + f)) as PP.
        assert (U : m < 1) by (apply qz_lt; qlra).
        assert (W : - ky <= m).
        { assert (X : (qz (- ky) < qz (m + 1))%Qc); [|apply (proj1 (qz_lt _ _)) in X; lia]. rewrite qz_add, qz_opp. destruct Hky as [E0|E0]; rewrite E0 in *; change (qz 1) with 1%Qc in *; rewrite ?qz_0 in *.
          - replace (0 * pow2 (iy + f))%Qc with 0%Qc in A by ring. qlra.
          - replace (1 * pow2 (iy + f))%Qc with (pow2 (iy + f)) in A by ring. qlra. }
        assert (ky * 1 <= k * 2 ^ (i + f)) by (apply Z.mul_le_mono_nonneg; lia). lia. }
  assert (Eo : ovf "WRAP" k (k + i + f) m = m).
  { apply ovf_id; auto; [lia| |discriminate]. rewrite lo_eq, hi_eq. replace (k + i + f - k) with (i + f) by lia. lia. }
  rewrite Eo in Ez. 
  destruct G as [G|[G _]].
  - destruct (gfixed_ovf z kq bq iq R S HR HS Hkq Hb) as [n' [Hn' ->]]. destruct (gfixed_ovf y kq bq iq R S HR HS Hkq Hb) as [n [Hn ->]].
    assert (Hm' : rounds_to "TRN" (z * pow2 f)%Qc m) by (rewrite Ez, code_scaled; apply rounds_to_qz; cbn; auto).
    pose proof (round_code R f (bq - iq) y n m G Hm Hn) as En. pose proof (round_code R f (bq - iq) z n' _ G Hm' Hn') as En'.
    rewrite En, En'. reflexivity.
  - f_equal. rewrite Ez. destruct Fy as [Gy _]. assert (Gf : on_grid f y) by (eapply grid_weaken; eauto). destruct Gf as [m0 E0].
    rewrite E0 in Hm. rewrite code_scaled in Hm. rewrite E0. f_equal. f_equal. eapply rounds_to_fun; [exact Hm|]. apply rounds_to_qz. cbn. auto.
Qed.

(** Saturating storage followed by saturating quantization. *)
Lemma via_sat R S y z k i f kq bq iq : (S = "SAT" \/ S = "SAT_SYM")%string -> (k = 0 \/ k = 1) -> (kq = 0 \/ kq = 1) -> kq <= bq -> 0 <= i + f -> guard_ok R f (bq - iq) ->
  kq <= k -> iq - kq <= i ->
  gfixed_quantizer y k (k + i + f) (k + i) "TRN" S = Ok z ->
  gfixed_quantizer z kq bq iq R S = gfixed_quantizer y kq bq iq R S.
Proof.
  intros ES Hk Hkq Hb Hw G Lk Li E. set (fq := bq - iq) in *.
  assert (HW : In S overflow_names) by (destruct ES as [->| ->]; cbn; auto). assert (HR : In R rounding_names) by (destruct G as [[-> _]|[-> _]]; cbn; auto).
  destruct (stored_code y k i f S HW Hk Hw) as [m [Hm Es]]. rewrite E in Es. assert (Ez : z = (qz (ovf S k (k + i + f) m) * pow2 (- f))%Qc) by congruence.
  destruct (gfixed_ovf z kq bq iq R S HR HW Hkq Hb) as [n' [Hn' ->]]. destruct (gfixed_ovf y kq bq iq R S HR HW Hkq Hb) as [n [Hn ->]].
  f_equal. f_equal. f_equal. fold fq in Hn, Hn'.
  assert (Hm' : rounds_to "TRN" (z * pow2 f)%Qc (ovf S k (k + i + f) m)) by (rewrite Ez, code_scaled; apply rounds_to_qz; cbn; auto).
  pose proof (round_code R f fq y n m G Hm Hn) as En. pose proof (round_code R f fq z n' _ G Hm' Hn') as En'. clear Hm Hn Hm' Hn'.
  set (d := f - fq) in *. assert (Hd : 0 <= d) by (destruct G as [[_ G]|[_ G]]; lia). assert (Pd : 0 < 2 ^ d) by (apply Z.pow_pos_nonneg; lia).
  set (H := half R d) in *.
  assert (HH : 0 <= H < 2 ^ d /\ (H = 0 \/ 1 <= H /\ 1 <= d /\ 2 * H = 2 ^ d)).
  { unfold H, half. destruct G as [[-> G]|[-> G]]; cbn [String.eqb Ascii.eqb Bool.eqb]; [lia|]. assert (X : 2 ^ d = 2 * 2 ^ (d - 1)) by (rewrite <- Z.pow_succ_r by lia; f_equal; lia).
    assert (0 < 2 ^ (d - 1)) by (apply Z.pow_pos_nonneg; lia). lia. }
  clearbody H. clear Ez E Es z y G.
  set (A := i + fq). assert (HA : bq - kq <= A) by (unfold A; lia). assert (PA : 0 < 2 ^ (bq - kq)) by (apply Z.pow_pos_nonneg; lia).
  assert (LA : 2 ^ (bq - kq) <= 2 ^ A) by (apply Z.pow_le_mono_r; lia).
  assert (EA : 2 ^ (i + f) = 2 ^ A * 2 ^ d) by (rewrite <- Z.pow_add_r by (unfold A; lia); f_equal; unfold A; lia).
  set (a := 2 ^ A) in *. set (h := 2 ^ (bq - kq)) in *. set (D := 2 ^ d) in *.
  (* m in range, too large, or too small *)
  assert (Edm : forall v, (v + H) / D * D <= v + H < ((v + H) / D + 1) * D).
  { intros v. pose proof (Z.div_mod (v + H) D ltac:(lia)) as X. pose proof (Z.mod_pos_bound (v + H) D Pd). lia. }
  pose proof (Edm m) as B1. rewrite <- En in B1. pose proof (Edm (ovf S k (k + i + f) m)) as B2. rewrite <- En' in B2.
  assert (SP : forall b kk v, ovf S kk b v = Z.max (Z.min v (hi kk b)) (if String.eqb S "SAT" then lo kk b else - (kk * hi kk b))).
  { intros. destruct ES as [->| ->]; reflexivity. }
  rewrite !SP. rewrite SP in B2. rewrite !lo_eq, !hi_eq in *. replace (k + i + f - k) with (i + f) in B2 by lia. fold h. rewrite EA in B2.
  clear En En' Edm SP HW.
  set (low := if String.eqb S "SAT" then - (k * (a * D)) else - (k * (a * D - 1))) in *. set (lowq := if String.eqb S "SAT" then - (kq * h) else - (kq * (h - 1))) in *.
  assert (Lw : low <= 0 /\ - (k * (a * D)) <= low <= - (k * (a * D - 1))) by (unfold low; destruct (String.eqb S "SAT"), Hk as [E|E]; rewrite E; nia).
  assert (Lq : - (kq * h) <= lowq <= 0 /\ (lowq = - (kq * h) \/ lowq = - (kq * (h - 1))) /\ (lowq = - (kq * h) -> kq = 1 -> low = - (k * (a * D)))).
  { unfold lowq, low. destruct (String.eqb S "SAT"), Hkq as [E|E]; rewrite E; nia. }
  clearbody low lowq.
  destruct (Z_lt_dec (a * D - 1) m) as [Up|Up]; [|destruct (Z_lt_dec m low) as [Dn|Dn]].
  - (* above *) rewrite Z.min_r in B2 by lia. rewrite Z.max_l in B2 by nia.
    assert (N1 : h - 1 <= n) by nia. assert (N2 : h - 1 <= n') by nia. lia.
  - (* below *) rewrite Z.min_l in B2 by lia. rewrite Z.max_r in B2 by lia.
    assert (N1 : n <= lowq /\ n' <= lowq).
    { destruct Hk as [E|E]; rewrite E in *.
      - assert (kq = 0) by lia. subst kq. assert (low = 0) by lia. assert (lowq = 0) by lia. subst low lowq. nia.
      - destruct Hkq as [E'|E']; rewrite E' in *.
        + assert (lowq = 0) by lia. subst lowq. nia.
        + assert (low <= - (a * D) + 1) by lia. destruct Lq as [Lq1 [Lq2 Lq3]]. destruct Lq2 as [Q|Q].
          * specialize (Lq3 Q eq_refl). nia.
          * nia. }
    lia.
  - rewrite Z.min_l in B2 by lia. rewrite Z.max_l in B2 by lia. assert (n = n') by nia. congruence.
Qed.

(** The requests of the consumers. *)
Lemma collect_in {A B} (g : A -> result B) (ls : list A) l : fold_right (fun m acc => rbind (g m) (fun t => rbind acc (fun l => Ok (t :: l)))) (Ok []) ls = Ok l ->
  forall m, In m ls -> exists t, g m = Ok t /\ In t l.
Proof.
  revert l. induction ls as [|a ls IH]; intros l E m Hm; [destruct Hm|]. cbn [fold_right] in E. destruct (g a) as [t|] eqn:Ea; cbn [rbind] in E; [|discriminate].
  destruct (fold_right _ _ ls) as [l'|] eqn:El; cbn [rbind] in E; [|discriminate]. assert (El2 : l = t :: l') by congruence. subst l. destruct Hm as [<-|Hm].
  - exists t. split; [exact Ea|left; reflexivity].
  - destruct (IH l' eq_refl m Hm) as [u [U1 U2]]. exists u. split; [exact U1|right; exact U2].
Qed.
Lemma requested_ge fuel net n s k1 i1 f1 m q ps o : requested (S fuel) net n s = Ok (k1, i1, f1) -> In m (out_layers net n) -> nth_error net m = Some (NFpq q, ps) ->
  nth_error s q = Some o -> snd (fst (fpq_request o)) <= i1 /\ snd (fpq_request o) <= f1.
Proof.
  intros E Hm En Eo. unfold requested in E. destruct (out_layers net n) as [|a ls] eqn:EL; [destruct Hm|]. rewrite <- EL in *. clear EL.
  destruct (fold_right _ _ _) as [l|] eqn:F in E; cbn [rbind] in E; [|discriminate].
  destruct (collect_in _ _ _ F m Hm) as [t [Et Ht]]. cbn [request] in Et. rewrite En, Eo in Et. assert (t = fpq_request o) by congruence. subst t.
  pose proof (SoundP.kifs_max_ge l _ E _ Ht) as G. cbn [fst snd] in G. lia.
Qed.

Lemma legal_safe c : legal_fmt c -> i8_safe c.
Proof. intros [A [B [C D]]]. split; lia. Qed.

Lemma merge_transparent k0 i0 f0 k1 i1 f1 k i f o c y z :
  legal_fpq o -> In c (data (cfgs o)) -> (rnd_name o = "TRN" \/ rnd_name o = "RND")%string ->
  (k0 = 0 \/ k0 = 1) -> fits k0 i0 f0 y -> snd (fst (fpq_request o)) <= i1 -> snd (fpq_request o) <= f1 ->
  merge_precision (k0, i0, f0) (k1, i1, f1) = (k, i, f) -> 0 <= i + f ->
  (i0 <= i1 \/ (sat_name o = "WRAP"%string /\ (k0 = 1 \/ kn c = 0 \/ ints c - kn c < i1))) ->
  gfixed_quantizer y k (k + i + f) (k + i) "TRN" "WRAP" = Ok z ->
  gfixed_quantizer z (kn c) (bits c) (ints c) (rnd_name o) (sat_name o) = gfixed_quantizer y (kn c) (bits c) (ints c) (rnd_name o) (sat_name o).
Proof.
  intros [NE [LF [HR HS]]] Hc TR Hk Fy Ri Rf EM HW Cond Ez.
  assert (Lc : legal_fmt c) by (rewrite Forall_forall in LF; auto). pose proof (legal_safe c Lc) as SC. destruct Lc as [Kc [Bc _]].
  destruct (result_t_kif o) as [[rk ri] rf] eqn:ER. destruct (result_t_kif_ge o rk ri rf c ER Hc SC) as [G1 [G2 G3]].
  assert (EF : snd (fpq_request o) = if String.eqb (rnd_name o) "TRN" then rf else if String.eqb (rnd_name o) "RND" then rf + 1 else rf + 2).
  { unfold fpq_request. rewrite ER. reflexivity. }
  assert (EI : snd (fst (fpq_request o)) = if (String.eqb (sat_name o) "WRAP" || String.eqb (sat_name o) "WRAP_SM")%bool then ri else 65535).
  { unfold fpq_request. rewrite ER. reflexivity. }
  assert (MK : k = k0 /\ f = Z.min f0 f1 /\ ((f1 < f0 /\ i0 <= i1 /\ i = i0 + 1) \/ ((f0 <= f1 \/ i1 < i0) /\ i = Z.min i0 i1))).
  { unfold merge_precision in EM. set (ii := if (Z.ltb f1 f0 && Z.leb i0 i1)%bool then Z.min i0 i1 + 1 else Z.min i0 i1) in EM.
    assert (E1 : k0 = k) by congruence. assert (E2 : ii = i) by congruence. assert (E3 : Z.min f0 f1 = f) by congruence.
    split; [lia|split; [lia|]]. unfold ii in E2. destruct (Z.ltb_spec f1 f0), (Z.leb_spec i0 i1); cbn [andb] in E2; lia. }
  destruct MK as [-> [Ef Ei]].
  assert (GU : f0 <= f \/ guard_ok (rnd_name o) f (bits c - ints c)).
  { destruct (Z_le_dec f0 f); [left; assumption|]. right. unfold guard_ok. rewrite EF in Rf. destruct TR as [T|T]; rewrite T in *; cbn in Rf; [left|right]; split; auto; lia. }
  destruct (Z_le_dec i0 i1) as [L|L].
  - (* no overflow *)
    eapply via_fit with (ky := k0) (iy := i0) (fy := f0) (i := i) (f := f) (k := k0); auto; try lia. destruct GU as [GU|GU]; auto.
  - destruct Cond as [|[W Cond]]; [lia|]. rewrite W in *. assert (i = i1) by lia. subst i. rewrite EI in Ri. cbn in Ri. assert (LI : ints c <= k0 + i1) by lia.
    destruct GU as [GU|GU].
    + (* on the grid: also when the quantizer is finer *)
      destruct (Z_le_dec (bits c - ints c) f) as [LF2|LF2].
      * destruct TR as [T|T]; rewrite T in *.
        -- eapply via_wrap with (k := k0) (i := i1) (f := f); eauto; left; split; auto.
        -- destruct (Z_le_dec (bits c - ints c + 1) f).
           ++ eapply via_wrap with (k := k0) (i := i1) (f := f); eauto; right; split; auto.
           ++ eapply via_wrap_grid with (k := k0) (i := i1) (f := f); eauto; [eapply grid_weaken; [exact GU|apply Fy]|lia].
      * eapply via_wrap_grid with (k := k0) (i := i1) (f := f); eauto; [eapply grid_weaken; [exact GU|apply Fy]|lia].
    + eapply via_wrap with (k := k0) (i := i1) (f := f); eauto.
Qed.

Lemma derived_spec net n s t R S : derived_result net n s = Ok (t, R, S) -> R = "TRN"%string /\
  forall m, In m (out_layers net n) -> exists q ps o k i f, nth_error net m = Some (NFpq q, ps) /\ nth_error s q = Some o /\ sat_name o = S /\ result_t_kif o = (k, i, f) /\
    k <= fst (fst t) /\ i <= snd (fst t) /\ (rnd_name o = "TRN"%string -> f <= snd t) /\ (rnd_name o = "RND"%string -> f + 1 <= snd t) /\ (rnd_name o <> "TRN"%string -> rnd_name o <> "RND"%string -> f + 2 <= snd t).
Proof.
  unfold derived_result. set (q_of := fun m => match nth_error net m with Some (NFpq q, _) => nth_error s q | _ => None end).
  set (qs := map q_of (out_layers net n)). destruct (forallb _ qs) eqn:FA; cbn [negb]; [|discriminate].
  set (cs := List.concat _). destruct cs as [|q0 rest] eqn:EC; [discriminate|]. rewrite <- EC in *.
  destruct (forallb (fun q => String.eqb (sat_name q) (sat_name q0)) cs) eqn:FS; cbn [negb]; [|discriminate].
  destruct (kifs_max _) as [t'|] eqn:EK; cbn [rbind]; [|discriminate]. intros E. assert (E1 : t = t') by congruence. assert (E2 : R = "TRN"%string) by congruence. assert (E3 : S = sat_name q0) by congruence.
  subst t' R S. split; [reflexivity|]. intros m Hm. clear E.
  assert (Q : exists o, q_of m = Some o).
  { rewrite forallb_forall in FA. specialize (FA (q_of m) (in_map q_of _ _ Hm)). destruct (q_of m); [eauto|discriminate]. }
  destruct Q as [o Qo].
  assert (Ho : In o cs).
  { unfold cs. apply in_concat. exists [o]. split; [|left; reflexivity]. apply in_map_iff. exists (Some o). split; [reflexivity|]. rewrite <- Qo. apply in_map, Hm. }
  unfold q_of in Qo. destruct (nth_error net m) as [[[] ps]|] eqn:Em; try discriminate. exists q, ps, o.
  destruct (result_t_kif o) as [[k i] f] eqn:ER. exists k, i, f. split; [reflexivity|]. split; [exact Qo|]. split.
  { rewrite forallb_forall in FS. apply String.eqb_eq, FS, Ho. }
  split; [reflexivity|].
  match type of EK with kifs_max (map ?g cs) = _ => pose proof (SoundP.kifs_max_ge _ _ EK (g o) (in_map g _ _ Ho)) as G end. cbv beta in G. rewrite ER in G. cbn [fst snd] in G.
  destruct G as [G1 [G2 G3]]. split; [exact G1|]. split; [exact G2|]. split; [|split].
  - intros T. rewrite T in G3. cbn in G3. lia.
  - intros T. rewrite T in G3. cbn in G3. lia.
  - intros T1 T2. apply String.eqb_neq in T1, T2. rewrite T1, T2 in G3. lia.
Qed.

Lemma input_transparent net n s k i f R S m q ps o c y z : derived_result net n s = Ok ((k, i, f), R, S) -> (k = 0 \/ k = 1) -> In m (out_layers net n) ->
  nth_error net m = Some (NFpq q, ps) -> nth_error s q = Some o -> legal_fpq o -> In c (data (cfgs o)) ->
  (rnd_name o = "TRN" \/ rnd_name o = "RND")%string -> (S = "WRAP" \/ S = "SAT" \/ S = "SAT_SYM")%string ->
  gfixed_quantizer y k (k + i + f) (k + i) R S = Ok z ->
  gfixed_quantizer z (kn c) (bits c) (ints c) (rnd_name o) (sat_name o) = gfixed_quantizer y (kn c) (bits c) (ints c) (rnd_name o) (sat_name o).
Proof.
  intros ED Hk Hm En Eo LQ Hc TR HS Ez. apply derived_spec in ED as [-> D]. destruct (D m Hm) as (q' & ps' & o' & k' & i' & f' & A1 & A2 & A3 & A4 & A5 & A6 & A7 & A8 & _).
  assert (q' = q) by congruence. subst q'. assert (o' = o) by congruence. subst o'. cbn [fst snd] in *.
  destruct LQ as [NE [LF [HR HS0]]]. assert (Lc : legal_fmt c) by (rewrite Forall_forall in LF; auto). pose proof (legal_safe c Lc) as SC. destruct Lc as [Kc [Bc _]].
  destruct (result_t_kif_ge o k' i' f' c A4 Hc SC) as [G1 [G2 G3]].
  assert (GU : guard_ok (rnd_name o) f (bits c - ints c)).
  { destruct TR as [T|T]; [left|right]; split; auto; [specialize (A7 T)|specialize (A8 T)]; lia. }
  assert (F : bits c - ints c <= f) by (destruct GU as [[_ ?]|[_ ?]]; lia).
  rewrite A3. destruct HS as [->|HS].
  - eapply via_wrap with (k := k) (i := i) (f := f); eauto; lia.
  - eapply via_sat with (k := k) (i := i) (f := f); eauto; lia.
Qed.
