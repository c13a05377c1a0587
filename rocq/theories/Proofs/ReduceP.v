(** Reducing a quantizer to the precision of its input. *)
From Coq Require Import ZArith Qcanon List Bool String Lia.
From Verif Require Import Base.Num Base.NumFacts Base.Tensor Model.FixedPoint Model.Precision Spec.Fixed Spec.Precision Proofs.FixedPointP Proofs.FixedPointLayerP Proofs.FitsP Proofs.PrecisionP.
Import ListNotations.
Open Scope Z_scope.

(** Overflow on integers, by name. *)
Definition ovf (S : string) (k b v : Z) : Z :=
  match S with
  | "SAT" => Z.max (Z.min v (hi k b)) (lo k b)
  | "SAT_SYM" => Z.max (Z.min v (hi k b)) (- (k * hi k b))
  | "SAT_ZERO" => if (Z.leb v (hi k b) && Z.leb (lo k b) v)%bool then v else 0
  | "WRAP" => (v - lo k b) mod 2 ^ b + lo k b
  | _ => wrap_sm k b v
  end%string.
Lemma ovf_spec S sat k b v : SAT_MAP S = Some sat -> k = 0 \/ k = 1 -> k <= b -> sat (qz v) k b = qz (ovf S k b v).
Proof.
  intros HS Hk Hb. apply sat_map_cases in HS. destruct HS as [[-> ->]|[[-> ->]|[[-> ->]|[[-> ->]|[-> ->]]]]]; unfold ovf.
  - apply SAT_qz; assumption.
  - apply SAT_ZERO_qz; assumption.
  - apply SAT_SYM_qz; assumption.
  - apply WRAP_qz; assumption.
  - apply WRAP_SM_qz; assumption.
Qed.
Lemma ovf_code S k b v : In S overflow_names -> k = 0 \/ k = 1 -> k <= b -> lo k b <= ovf S k b v <= hi k b.
Proof.
  intros HS Hk Hb. apply sat_map_some in HS as [sat HS]. destruct (sat_code S sat k b v HS Hk Hb) as [c [E C]].
  rewrite (ovf_spec S sat k b v HS Hk Hb) in E. apply qz_inj in E. subst c. apply code_iff in C; assumption.
Qed.
Lemma ovf_id S k b v : In S overflow_names -> k = 0 \/ k = 1 -> k <= b -> lo k b <= v <= hi k b -> (S = "SAT_SYM"%string -> k = 1 -> v <> - 2 ^ (b - 1)) -> ovf S k b v = v.
Proof.
  intros HS Hk Hb C X. apply sat_map_some in HS as [sat HS]. apply qz_inj. rewrite <- (ovf_spec S sat k b v HS Hk Hb). apply (sat_id S sat k b v HS Hk Hb); [|exact X].
  apply code_iff; assumption.
Qed.

(** The quantizer in these terms, also for zero bits. *)
Lemma gfixed_ovf x k b i R S : In R rounding_names -> In S overflow_names -> k = 0 \/ k = 1 -> k <= b ->
  exists n, rounds_to R (x * pow2 (b - i))%Qc n /\ gfixed_quantizer x k b i R S = Ok (qz (ovf S k b n) * pow2 (i - b))%Qc.
Proof.
  intros HR HS Hk Hb. pose proof HS as HS0. apply rnd_map_some in HR as [rnd HR]. apply sat_map_some in HS as [sat HS].
  destruct (rnd_spec R rnd (x * pow2 (b - i))%Qc HR) as [n [En Rn]]. exists n. split; [exact Rn|].
  unfold gfixed_quantizer. rewrite HR, HS. f_equal. destruct (Z.eq_dec b 0) as [->|Nb].
  - rewrite gfixed_elem_z. assert (k = 0) by lia. subst k. pose proof (ovf_code S 0 0 n HS0 Hk Hb) as C. unfold lo, hi in C. cbn in C.
    replace (ovf S 0 0 n) with 0 by lia. symmetry. apply mul0.
  - rewrite gfixed_elem_nz by assumption. rewrite En, (ovf_spec S sat k b n HS Hk Hb). reflexivity.
Qed.

(** Rounding of bounded numbers. *)
Lemma rounds_le R v n a : rounds_to R v n -> (v <= qz a)%Qc -> n <= a.
Proof. intros H L. eapply rounds_to_mono; [exact L|exact H|]. apply rounds_to_qz. eapply rounds_to_inv; eauto. Qed.
Lemma rounds_ge R v n a : rounds_to R v n -> (qz a <= v)%Qc -> a <= n.
Proof. intros H L. eapply rounds_to_mono; [exact L| |exact H]. apply rounds_to_qz. eapply rounds_to_inv; eauto. Qed.
Lemma rounds_half R v n : rounds_to R v n -> (v < qhalf)%Qc -> n <= 0.
Proof.
  intros H L. destruct (Z_le_dec n 0) as [|C]; [assumption|]. exfalso. assert (Q : (qz 1 <= qz n)%Qc) by (apply qz_le; lia).
  assert (Q2 : (qhalf + qhalf = qz 1)%Qc) by (apply Qc_is_canon; reflexivity).
  unfold rounds_to, nearest in H. destruct H as [H|[H|[H|[H|[H|[H|H]]]]]]; intuition qlra.
Qed.

Lemma lo_eq k b : lo k b = - (k * 2 ^ (b - k)).
Proof. reflexivity. Qed.
Lemma hi_eq k b : hi k b = 2 ^ (b - k) - 1.
Proof. reflexivity. Qed.

(** The scaled input. *)
Lemma scaled_bounds ik ii jf g x : (ik = 0 \/ ik = 1) -> fits ik ii jf x -> (- (qz ik * pow2 (ii + g)) <= x * pow2 g)%Qc /\ (x * pow2 g < pow2 (ii + g))%Qc.
Proof.
  intros Hk [_ [A B]]. rewrite pow2_add. pose proof (pow2_pos g) as P. split.
  - replace (- (qz ik * (pow2 ii * pow2 g)))%Qc with (- (qz ik * pow2 ii) * pow2 g)%Qc by ring. apply qmul_le_r; [qlra|exact A].
  - apply qmul_lt_r; assumption.
Qed.
(** Rounding an input to fewer fractional bits: one more integer bit suffices,
    and half of the range below. *)
Lemma round_coarse ik ii jf g R x n : (ik = 0 \/ ik = 1) -> fits ik ii jf x -> 0 <= ii + g -> rounds_to R (x * pow2 g)%Qc n ->
  - (ik * 2 ^ (ii + g)) <= n <= 2 ^ (ii + g).
Proof.
  intros Hk F H Rn. destruct (scaled_bounds ik ii jf g x Hk F) as [A B]. rewrite (pow2_Z (ii + g)) in A, B by exact H. rewrite <- qz_mul, <- qz_opp in A. split.
  - eapply rounds_ge; eauto.
  - eapply rounds_le; [exact Rn|]. qlra.
Qed.
Lemma round_coarse_tiny ik ii jf g R x n : (ik = 0 \/ ik = 1) -> fits ik ii jf x -> ii + g = -1 -> rounds_to R (x * pow2 g)%Qc n -> - ik <= n <= 0.
Proof.
  intros Hk F H Rn. destruct (scaled_bounds ik ii jf g x Hk F) as [A B]. rewrite H in A, B. change (pow2 (-1)) with qhalf in *. split.
  - eapply rounds_ge; [exact Rn|]. rewrite qz_opp. assert (Q2 : (qhalf + qhalf = qz 1)%Qc) by (apply Qc_is_canon; reflexivity).
    destruct Hk as [->| ->]; change (qz 1) with 1%Qc in *; qlra.
  - eapply rounds_half; eauto.
Qed.
(** Rounding an input with no more fractional bits is exact. *)
Lemma round_exact ik ii jf g R x n : (ik = 0 \/ ik = 1) -> fits ik ii jf x -> jf <= g -> 0 <= ii + jf -> rounds_to R (x * pow2 g)%Qc n ->
  exists m, x = (qz m * pow2 (- jf))%Qc /\ - (ik * 2 ^ (ii + jf)) <= m < 2 ^ (ii + jf) /\ n = m * 2 ^ (g - jf).
Proof.
  intros Hk F Hg H Rn. destruct F as [[m E] B]. exists m. split; [exact E|].
  assert (En : (x * pow2 g)%Qc = qz (m * 2 ^ (g - jf))).
  { rewrite E, qz_mul, <- pow2_Z by lia. rewrite <- Qcmult_assoc, <- pow2_add. f_equal. f_equal. lia. }
  split; [|eapply rounds_to_fun; [exact Rn|]; rewrite En; apply rounds_to_qz; eapply rounds_to_inv; eauto].
  assert (F : fits ik ii jf x) by (split; [exists m; exact E|exact B]). destruct (scaled_bounds ik ii jf jf x Hk F) as [C D].
  assert (Em : (x * pow2 jf)%Qc = qz m) by (rewrite E, <- Qcmult_assoc, <- pow2_add; replace (- jf + jf) with 0 by lia; change (pow2 0) with 1%Qc; ring).
  rewrite Em in C, D. rewrite (pow2_Z (ii + jf)) in C, D by exact H. rewrite <- qz_mul, <- qz_opp in C. apply (proj1 (qz_le _ _)) in C. apply (proj1 (qz_lt _ _)) in D. lia.
Qed.

(** Changing the resolution of the code. *)
Lemma pow_split2 a d : 0 <= a -> 0 <= d -> 2 ^ (a + d) = 2 ^ a * 2 ^ d.
Proof. intros. apply Z.pow_add_r; assumption. Qed.
Lemma ovf_wrap_scale k M d m : (k = 0 \/ k = 1) -> 0 <= M -> 0 <= d -> ovf "WRAP" k (k + M + d) (m * 2 ^ d) = ovf "WRAP" k (k + M) m * 2 ^ d.
Proof.
  intros Hk HM Hd. unfold ovf, lo. replace (k + M + d - k) with (M + d) by lia. replace (k + M - k) with M by lia.
  rewrite (pow_split2 (k + M) d), (pow_split2 M d) by (destruct Hk; lia).
  replace (m * 2 ^ d - - (k * (2 ^ M * 2 ^ d))) with ((m - - (k * 2 ^ M)) * 2 ^ d) by ring.
  assert (P : 0 < 2 ^ d) by (apply Z.pow_pos_nonneg; lia). assert (P2 : 0 < 2 ^ (k + M)) by (apply Z.pow_pos_nonneg; destruct Hk; lia).
  rewrite Z.mul_mod_distr_r by lia. ring.
Qed.
Lemma ovf_sz_scale k M d m : (k = 0 \/ k = 1) -> 0 <= M -> 0 <= d -> ovf "SAT_ZERO" k (k + M + d) (m * 2 ^ d) = ovf "SAT_ZERO" k (k + M) m * 2 ^ d.
Proof.
  intros Hk HM Hd. unfold ovf, lo, hi. replace (k + M + d - k) with (M + d) by lia. replace (k + M - k) with M by lia. rewrite (pow_split2 M d) by lia.
  assert (P : 0 < 2 ^ d) by (apply Z.pow_pos_nonneg; lia). assert (P2 : 0 < 2 ^ M) by (apply Z.pow_pos_nonneg; lia).
  destruct (Z.leb_spec (m * 2 ^ d) (2 ^ M * 2 ^ d - 1)), (Z.leb_spec (- (k * (2 ^ M * 2 ^ d))) (m * 2 ^ d)),
    (Z.leb_spec m (2 ^ M - 1)), (Z.leb_spec (- (k * 2 ^ M)) m); cbn [andb]; try reflexivity; exfalso; nia.
Qed.

(** Values at different resolutions. *)
Lemma same_value a b ea eb d : 0 <= d -> ea = eb - d -> a = b * 2 ^ d -> (qz a * pow2 ea)%Qc = (qz b * pow2 eb)%Qc.
Proof.
  intros Hd -> ->. rewrite qz_mul, <- pow2_Z by exact Hd. rewrite <- Qcmult_assoc, <- pow2_add. f_equal. f_equal. lia.
Qed.

(** ** Main lemma *)
Section Reduce.
Variables (ik ii jf ok oi of : Z) (R S : string) (x : Qc).
Hypothesis Hik : ik = 0 \/ ik = 1.
Hypothesis Hok : ok = 0 \/ ok = 1.
Hypothesis HR : In R rounding_names.
Hypothesis HS : In S overflow_names.
Hypothesis HM : 0 <= oi + of.
Hypothesis Hx : fits ik ii jf x.
Variables k i f : Z.
Hypothesis Dk : k = Z.min ik ok.
Hypothesis Df : f = Z.min jf of.
Hypothesis Di : i = if (Z.leb ii oi && Z.ltb f jf)%bool then Z.min ii oi + 1 else Z.min ii oi.
Hypothesis HW : 0 <= i + f.
Hypothesis HH : harmless S ik ii jf ok oi of.

Lemma i_cases : (ii <= oi /\ of < jf /\ i = ii + 1 /\ f = of) \/ (oi < ii /\ of < jf /\ i = oi /\ f = of) \/ (jf <= of /\ i = Z.min ii oi /\ f = jf).
Proof. rewrite Di. destruct (Z.leb_spec ii oi), (Z.ltb_spec f jf); cbn [andb]; lia. Qed.

Lemma reduce_same_result : gfixed_quantizer x ok (ok + oi + of) (ok + oi) R S = gfixed_quantizer x k (Z.min (ok + oi + of) (k + i + f)) (Z.min (ok + oi) (k + i)) R S.
Proof using Dk Df Di Hik Hok HR HS HM Hx HW HH.
  assert (Hk : k = 0 \/ k = 1) by (lia).
  pose proof i_cases as IC. clear Di.
  destruct (Z_le_dec (k + i) (ok + oi)) as [LI|LI].
  2: { (* unchanged *) assert (E : k = ok /\ i = oi + 1 /\ f = of) by (lia). destruct E as [-> [Ei Ef]].
       rewrite Z.min_l by lia. rewrite Z.min_l by lia. reflexivity. }
  assert (DD : (k = ok /\ i = oi /\ f = of) \/ ~ (k = ok /\ i = oi /\ f = of)) by lia.
  destruct DD as [(Xk & Xi & Xf)|DD]; [rewrite Xk, Xi, Xf, !Z.min_id; reflexivity|].
  rewrite (Z.min_r (ok + oi) (k + i)) by lia. rewrite (Z.min_r (ok + oi + of) (k + i + f)) by (lia).
  destruct (gfixed_ovf x ok (ok + oi + of) (ok + oi) R S HR HS Hok ltac:(lia)) as [n [Rn ->]].
  destruct (gfixed_ovf x k (k + i + f) (k + i) R S HR HS Hk ltac:(lia)) as [n' [Rn' ->]].
  f_equal. replace (ok + oi + of - (ok + oi)) with of in Rn by lia. replace (k + i + f - (k + i)) with f in Rn' by lia.
  replace (ok + oi - (ok + oi + of)) with (- of) by lia. replace (k + i - (k + i + f)) with (- f) by lia.
  assert (PM : 0 < 2 ^ (oi + of)) by (apply Z.pow_pos_nonneg; lia). assert (PW : 0 < 2 ^ (i + f)) by (apply Z.pow_pos_nonneg; lia).
  (* both in range *)
  assert (SAFE : forall d m, 0 <= d -> of = f + d -> n' = m -> n = m * 2 ^ d -> - (k * 2 ^ (i + f)) <= m < 2 ^ (i + f) -> - (ok * 2 ^ (oi + of)) <= n < 2 ^ (oi + of) ->
            (S = "SAT_SYM"%string -> (k = 1 -> m <> - 2 ^ (i + f)) /\ (ok = 1 -> n <> - 2 ^ (oi + of))) ->
            (qz (ovf S ok (ok + oi + of) n) * pow2 (- of))%Qc = (qz (ovf S k (k + i + f) n') * pow2 (- f))%Qc).
  { intros d m Hd Ed -> -> B1 B2 SY. rewrite (ovf_id S k (k + i + f) m); auto; [|lia| |].
    - rewrite (ovf_id S ok (ok + oi + of) (m * 2 ^ d)); auto; [|lia| |].
      + eapply same_value; [exact Hd| |reflexivity]. lia.
      + rewrite lo_eq, hi_eq. replace (ok + oi + of - ok) with (oi + of) by lia. lia.
      + intros ES Ek. replace (ok + oi + of - 1) with (oi + of) by lia. apply SY; assumption.
    - rewrite lo_eq, hi_eq. replace (k + i + f - k) with (i + f) by lia. lia.
    - intros ES Ek. replace (k + i + f - 1) with (i + f) by lia. apply SY; assumption. }
  (* the same integer with the same overflow bounds *)
  destruct IC as [(C1 & C2 & C3 & C4)|[(C1 & C2 & C3 & C4)|(C1 & C2 & C3)]].
  - (* coarser, within range *)
    assert (En : n' = n) by (rewrite C4 in Rn'; eapply rounds_to_fun; eauto). 
    assert (BN : - (ik * 2 ^ (i + f)) <= n < 2 ^ (i + f) /\ (0 <= ii + of -> - (ik * 2 ^ (ii + of)) <= n <= 2 ^ (ii + of))).
    { split.
      - destruct (Z_le_dec 0 (ii + of)) as [P|P].
        + pose proof (round_coarse ik ii jf of R x n Hik Hx P Rn) as Q. rewrite C3, C4. replace (ii + 1 + of) with (Z.succ (ii + of)) by lia. rewrite Z.pow_succ_r by lia.
          assert (0 < 2 ^ (ii + of)) by (apply Z.pow_pos_nonneg; lia). destruct Hik; subst ik; nia.
        + pose proof (round_coarse_tiny ik ii jf of R x n Hik Hx ltac:(lia) Rn) as Q. replace (i + f) with 0 by lia. cbn. lia.
      - intros P. eapply round_coarse; eauto. }
    destruct BN as [BN BN2].
    assert (LE1 : k + i <= ok + oi) by lia.
    assert (PLE : i <= oi -> 2 ^ (i + f) <= 2 ^ (oi + of)) by (intros; apply Z.pow_le_mono_r; lia).
    destruct (Z_le_dec ik ok) as [Lk|Gk].
    + (* sign kept *)
      assert (Ek : k = ik) by (lia).
      assert (ET : exact_top ik ii jf ok oi of \/ (S = "WRAP"%string /\ ik = ok)).
      { clear -HS HH C1 C2 Lk. cbn in HS. destruct HS as [<-|[<-|[<-|[<-|[<-|[]]]]]]; cbn in HH; unfold exact_top in *; intuition lia. }
      destruct (Z_le_dec i oi) as [Li|Gi].
      * apply (SAFE 0 n); [lia|lia|exact En|lia|rewrite Ek; lia|specialize (PLE Li); destruct Hik as [E|E], Hok as [E'|E']; rewrite E, E' in *; lia|]. intros ES. rewrite ES in HH. cbn in HH. destruct HH as (_ & _ & HY). rewrite Ek. split; intros E1 E2.
        -- destruct HY as [Y|[Y|[[Y1 Y2]|Y]]]; [lia|lia| |lia]. specialize (BN2 Y2). rewrite C3, C4 in E2. replace (ii + 1 + of) with (Z.succ (ii + of)) in E2 by lia. rewrite Z.pow_succ_r in E2 by lia.
           assert (0 < 2 ^ (ii + of)) by (apply Z.pow_pos_nonneg; lia). destruct Hik; subst ik; lia.
        -- destruct HY as [Y|[Y|[[Y1 Y2]|Y]]]; [rewrite Y in BN; lia|lia| |lia]. specialize (BN2 Y2).
           assert (2 ^ (ii + of) < 2 ^ (oi + of)) by (apply Z.pow_lt_mono_r; lia). destruct Hik; subst ik; nia.
      * (* one bit for the sign is reused *)
        exfalso. assert (ik = 0 /\ ok = 1 /\ ii = oi) by lia. destruct ET as [ET|[_ ET]]; [|lia]. apply ET. lia.
    + (* signed input, unsigned quantizer *)
      assert (ik = 1 /\ ok = 0) as [E1 E0] by lia. assert (Ek : k = 0) by (lia). rewrite En, Ek, E0, C4. f_equal. f_equal.
      assert (Li : i <= oi) by lia. specialize (PLE Li).
      cbn in HS. destruct HS as [<-|[<-|[<-|[<-|[<-|[]]]]]]; cbn [harmless] in HH.
      * unfold ovf. rewrite !lo_eq, !hi_eq. replace (0 + oi + of - 0) with (oi + of) by lia. replace (0 + i + of - 0) with (i + f) by lia. lia.
      * unfold ovf. rewrite !lo_eq, !hi_eq. replace (0 + oi + of - 0) with (oi + of) by lia. replace (0 + i + of - 0) with (i + f) by lia.
        destruct (Z.leb_spec n (2 ^ (oi + of) - 1)), (Z.leb_spec n (2 ^ (i + f) - 1)), (Z.leb_spec (- (0 * 2 ^ (oi + of))) n), (Z.leb_spec (- (0 * 2 ^ (i + f))) n); cbn [andb]; lia.
      * unfold ovf. rewrite !hi_eq. replace (0 + oi + of - 0) with (oi + of) by lia. replace (0 + i + of - 0) with (i + f) by lia. lia.
      * (* WRAP: ii = oi, nothing changes *) exfalso. lia.
      * exfalso. lia.
  - (* coarser, input wider than the quantizer: format changes only if the sign goes *)
    assert (En : n' = n) by (rewrite C4 in Rn'; eapply rounds_to_fun; eauto). rewrite En, C3, C4.
    destruct (Z.eq_dec k ok) as [Ek|Nk]; [rewrite Ek; reflexivity|].
    assert (ik = 0 /\ ok = 1) as [E0 E1] by (lia). assert (Ek : k = 0) by (lia). rewrite Ek, E1. f_equal. f_equal.
    assert (N0 : 0 <= n).
    { eapply rounds_ge; [exact Rn|]. destruct (scaled_bounds ik ii jf of x Hik Hx) as [A _]. rewrite E0 in A. rewrite mul0 in A. generalize dependent (x * pow2 of)%Qc. intros. qlra. }
    clear SAFE. cbn in HS. destruct HS as [<-|[<-|[<-|[<-|[<-|[]]]]]]; cbn [harmless] in HH; try (exfalso; lia);
    unfold ovf; rewrite ?lo_eq, ?hi_eq; replace (1 + oi + of - 1) with (oi + of) by lia; replace (0 + oi + of - 0) with (oi + of) by lia.
    + lia.
    + destruct (Z.leb_spec n (2 ^ (oi + of) - 1)), (Z.leb_spec (- (1 * 2 ^ (oi + of))) n), (Z.leb_spec (- (0 * 2 ^ (oi + of))) n); cbn [andb]; lia.
    + lia.
  - (* exact *)
    assert (LI2 : 0 <= ii + jf) by lia.
    destruct (round_exact ik ii jf of R x n Hik Hx C1 LI2 Rn) as [m [Em [Bm Enm]]].
    assert (LF : jf <= f) by lia.
    destruct (round_exact ik ii jf f R x n' Hik Hx LF LI2 Rn') as [m' [Em' [Bm' Enm']]].
    assert (Emm : m' = m).
    { rewrite Em in Em'. assert (Q : qz m = qz m').
      { rewrite <- (mul_pow2_cancel (qz m) (- jf)), <- (mul_pow2_cancel (qz m') (- jf)), Em'. reflexivity. }
      apply qz_inj in Q. congruence. }
    subst m'. replace (f - jf) with 0 in Enm' by lia. rewrite Z.mul_1_r in Enm'. clear Bm' Em'.
    assert (P2 : 2 ^ (oi + of) = 2 ^ (oi + jf) * 2 ^ (of - jf) \/ oi + jf < 0).
    { destruct (Z_le_dec 0 (oi + jf)); [left|right; lia]. rewrite <- Z.pow_add_r by lia; f_equal; lia. }
    destruct P2 as [P2|]; [|exfalso; lia].
    assert (PD : 0 < 2 ^ (of - jf)) by (apply Z.pow_pos_nonneg; lia).
    assert (PI : 0 < 2 ^ (ii + jf)) by (apply Z.pow_pos_nonneg; lia).
    destruct (Z_le_dec ii oi) as [LE|GT].
    + assert (Ei : i = ii) by lia.
      assert (LEP : 2 ^ (ii + jf) <= 2 ^ (oi + jf)) by (apply Z.pow_le_mono_r; lia).
      destruct (Z_le_dec ik ok) as [Lk|Gk].
      * assert (Ek : k = ik) by (lia). apply (SAFE (of - jf) m); [lia|lia|exact Enm'|exact Enm|rewrite Ek, Ei, C3; lia| |].
        -- rewrite Enm, P2. split; [|nia]. destruct Hik as [E|E], Hok as [E'|E']; rewrite E, E' in *; try lia; nia.
        -- intros ES. rewrite ES in HH. cbn in HH. destruct HH as (_ & _ & HY). rewrite Ek, Ei, C3. split; intros E1 E2.
           ++ destruct HY as [Y|[Y|[[Y1 Y2]|[Y1 Y2]]]]; lia.
           ++ destruct HY as [Y|[Y|[[Y1 Y2]|[Y1 Y2]]]]; [rewrite Enm, P2 in E2; rewrite Y in Bm; nia|lia|lia|lia].
      * assert (ik = 1 /\ ok = 0) as [E1 E0] by lia. assert (Ek : k = 0) by (lia).
        assert (SG : (n < 0 /\ m < 0) \/ (0 <= m /\ 0 <= n)) by (rewrite Enm; destruct (Z_lt_dec m 0); nia).
        destruct SG as [[Gn Gm]|[Gm Gn]].
        2: { apply (SAFE (of - jf) m); [lia|lia|exact Enm'|exact Enm|rewrite Ek, Ei, C3; lia|rewrite E0, Enm, P2; nia|]. intros _. lia. }
        rewrite Enm', Ek, E0, C3. clear SAFE.
        assert (NEG : forall S', In S' ["SAT"; "SAT_ZERO"; "SAT_SYM"]%string -> forall w v, 0 <= w -> v < 0 -> ovf S' 0 w v = 0).
        { intros S' HS' w v Hw Hv. assert (0 < 2 ^ w) by (apply Z.pow_pos_nonneg; lia). cbn in HS'. destruct HS' as [<-|[<-|[<-|[]]]]; unfold ovf; rewrite ?lo_eq, ?hi_eq; rewrite ?Z.sub_0_r; try lia.
          destruct (Z.leb_spec (- (0 * 2 ^ w)) v); [lia|]. rewrite andb_false_r. reflexivity. }
        cbn in HS. destruct HS as [ES|[ES|[ES|[ES|[ES|[]]]]]]; rewrite <- ES in *; cbn [harmless] in HH; try (exfalso; lia).
        -- rewrite !NEG by (cbn; auto; lia). rewrite !mul0. reflexivity.
        -- rewrite !NEG by (cbn; auto; lia). rewrite !mul0. reflexivity.
        -- rewrite !NEG by (cbn; auto; lia). rewrite !mul0. reflexivity.
        -- assert (ii = oi) by lia. apply (same_value _ _ _ _ (of - jf)); [lia|lia|]. rewrite Enm. replace (0 + oi + of) with (0 + (oi + jf) + (of - jf)) by lia. 
           replace (0 + i + jf) with (0 + (oi + jf)) by lia. apply ovf_wrap_scale; lia.
    + assert (Ei : i = oi) by lia. clear SAFE. rewrite Enm', C3, Ei.
      apply (same_value _ _ _ _ (of - jf)); [lia|lia|]. rewrite Enm.
      destruct (Z.eq_dec k ok) as [Ek|Nk].
      * rewrite Ek. replace (ok + oi + of) with (ok + (oi + jf) + (of - jf)) by lia. replace (ok + oi + jf) with (ok + (oi + jf)) by lia.
        cbn in HS. destruct HS as [ES|[ES|[ES|[ES|[ES|[]]]]]]; rewrite <- ES in *; cbn [harmless] in HH; try (exfalso; lia).
        -- apply ovf_sz_scale; lia.
        -- apply ovf_wrap_scale; lia.
      * assert (ik = 0 /\ ok = 1) as [E0 E1] by (lia). assert (Ek : k = 0) by (lia). rewrite Ek, E1.
        cbn in HS. destruct HS as [ES|[ES|[ES|[ES|[ES|[]]]]]]; rewrite <- ES in *; cbn [harmless] in HH; try (exfalso; lia);
        unfold ovf; rewrite ?lo_eq, ?hi_eq; replace (1 + oi + of - 1) with (oi + of) by lia; replace (0 + oi + jf - 0) with (oi + jf) by lia.
        -- replace (of - jf) with 0 in * by lia. lia.
        -- rewrite P2. destruct (Z.leb_spec (m * 2 ^ (of - jf)) (2 ^ (oi + jf) * 2 ^ (of - jf) - 1)), (Z.leb_spec (- (1 * (2 ^ (oi + jf) * 2 ^ (of - jf)))) (m * 2 ^ (of - jf))),
             (Z.leb_spec m (2 ^ (oi + jf) - 1)), (Z.leb_spec (- (0 * 2 ^ (oi + jf))) m); cbn [andb]; try reflexivity; exfalso; nia.
        -- replace (of - jf) with 0 in * by lia. lia.
Qed.
End Reduce.

Lemma fpq_reduce_same q c q' c' ik ii jf k i f x :
  uniform q c -> (ik = 0 \/ ik = 1) -> fpq_produced (ik, ii, jf) q = ((k, i, f), q') -> In c' (data (cfgs q')) ->
  0 <= i + f -> harmless (sat_name q) ik ii jf (kn c) (ints c - kn c) (bits c - ints c) -> fits ik ii jf x ->
  gfixed_quantizer x (kn c') (bits c') (ints c') (rnd_name q') (sat_name q') = gfixed_quantizer x (kn c) (bits c) (ints c) (rnd_name q) (sat_name q).
Proof.
  intros [[NE [LF [HR HS]]] U] Hik E Hc' HW HH Hx.
  destruct (result_t_kif_one q c NE LF U) as [ER [L1 [L2 [L3 L4]]]]. unfold fpq_produced in E. rewrite ER in E.
  set (f0 := Z.min jf (bits c - ints c)) in *. set (k0 := Z.min ik (kn c)) in *.
  set (i0 := if (Z.leb ii (ints c - kn c) && Z.ltb f0 jf)%bool then Z.min ii (ints c - kn c) + 1 else Z.min ii (ints c - kn c)) in *.
  pose proof (f_equal fst E) as E1. pose proof (f_equal snd E) as E2. cbn [fst snd] in E1, E2. clear E.
  assert (Ek : k0 = k) by congruence. assert (Ei : i0 = i) by congruence. assert (Ef : f0 = f) by congruence. clear E1.
  assert (Dk : k = Z.min ik (kn c)) by (rewrite <- Ek; reflexivity). assert (Df : f = Z.min jf (bits c - ints c)) by (rewrite <- Ef; reflexivity).
  assert (Di : i = if (Z.leb ii (ints c - kn c) && Z.ltb f jf)%bool then Z.min ii (ints c - kn c) + 1 else Z.min ii (ints c - kn c)) by (rewrite <- Ei, <- Ef; reflexivity).
  assert (N : rnd_name q' = rnd_name q /\ sat_name q' = sat_name q).
  { rewrite <- E2. destruct (negb (Z.eqb k0 (kn c)) || negb (Z.eqb i0 (ints c - kn c)) || negb (Z.eqb f0 (bits c - ints c)))%bool; split; reflexivity. }
  destruct N as [-> ->].
  assert (M : 0 <= ints c - kn c + (bits c - ints c)) by lia.
  pose proof (reduce_same_result ik ii jf (kn c) (ints c - kn c) (bits c - ints c) (rnd_name q) (sat_name q) x Hik L1 HR HS M Hx k i f Dk Df Di HW HH) as Q.
  replace (kn c + (ints c - kn c) + (bits c - ints c)) with (bits c) in Q by lia. replace (kn c + (ints c - kn c)) with (ints c) in Q by lia.
  rewrite Q. rewrite <- E2, Ek, Ei, Ef in Hc'. clear E2. rewrite Forall_forall in U.
  destruct (negb (Z.eqb k (kn c)) || negb (Z.eqb i (ints c - kn c)) || negb (Z.eqb f (bits c - ints c)))%bool eqn:B.
  - cbn [reduce_fpq cfgs tmap data] in Hc'. apply in_map_iff in Hc' as [d [<- Hd]]. rewrite (U d Hd). unfold reduce_elem. cbn [kn bits ints].
    replace (Z.min (kn c) k) with k by lia. reflexivity.
  - rewrite (U c' Hc'). apply orb_false_iff in B as [B B3]. apply orb_false_iff in B as [B1 B2]. apply negb_false_iff, Z.eqb_eq in B1, B2, B3.
    rewrite B1, B2, B3. replace (kn c + (ints c - kn c) + (bits c - ints c)) with (bits c) by lia. replace (kn c + (ints c - kn c)) with (ints c) by lia. rewrite !Z.min_id. reflexivity.
Qed.
