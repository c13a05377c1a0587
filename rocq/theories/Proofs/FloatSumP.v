(** Sums and quantizations that are exact in single precision (C65). *)
From Coq Require Import ZArith QArith Qcanon List Bool Lia Permutation.
From Verif Require Import Base.Num Base.NumFacts Base.Tensor Model.FixedPoint Model.Quantizer Model.Layers Model.Float32 Model.FloatLayer
  Spec.Quant Spec.Float Spec.FloatLayer Proofs.FixedPointP Proofs.QuantizerP Proofs.SampleP Proofs.Float32P Proofs.Float32Q.
Import ListNotations.
Local Open Scope Z_scope.

Definition asum (ts : list Qc) : Qc := fold_right (fun t s => qabs t + s)%Qc (qz 0) ts.
Definition prod_of (xw : Qc * Qc) : Qc := (fst xw * snd xw)%Qc.

Lemma asum_app a b : asum (a ++ b) = (asum a + asum b)%Qc.
Proof. unfold asum. induction a as [|t a IH]; cbn [app fold_right]; [rewrite qz_0; ring|]. rewrite IH. ring. Qed.
Lemma qsum_app a b : qsum (a ++ b) = (qsum a + qsum b)%Qc.
Proof. unfold qsum. induction a as [|t a IH]; cbn [app fold_right]; [rewrite qz_0; ring|]. rewrite IH. ring. Qed.
Lemma asum_nonneg ts : (qz 0 <= asum ts)%Qc.
Proof. unfold asum. induction ts as [|t ts IH]; cbn [fold_right]; [apply Qcle_refl|]. pose proof (qabs_nonneg t). qlra. Qed.
Lemma asum_perm a b : Permutation a b -> asum a = asum b.
Proof. unfold asum. induction 1; cbn [fold_right]; try congruence. ring. Qed.
Lemma qsum_perm a b : Permutation a b -> qsum a = qsum b.
Proof. unfold qsum. induction 1; cbn [fold_right]; try congruence. ring. Qed.
Lemma qsum_le_asum ts : (qabs (qsum ts) <= asum ts)%Qc.
Proof.
  unfold asum, qsum. induction ts as [|t ts IH]; [vm_compute; discriminate|]. cbn [fold_right]. apply qabs_le_iff in IH. apply qabs_le_iff.
  assert (L : (- qabs t <= t)%Qc /\ (t <= qabs t)%Qc) by (apply qabs_le_iff, Qcle_refl). split; qlra.
Qed.

Lemma exact_range_app G a b : exact_range G (a ++ b) -> exact_range G a /\ exact_range G b.
Proof.
  intros [H1 [H2 H3]]. apply Forall_app in H2. fold (asum (a ++ b)) in H3. rewrite asum_app in H3.
  pose proof (asum_nonneg a). pose proof (asum_nonneg b).
  split; (split; [exact H1|]); (split; [apply H2|]); [fold (asum a)|fold (asum b)]; qlra.
Qed.
Lemma exact_range_perm G a b : Permutation a b -> exact_range G a -> exact_range G b.
Proof.
  intros P [H1 [H2 H3]]. split; [exact H1|]. split; [eapply Permutation_Forall; eassumption|].
  fold (asum b). rewrite <- (asum_perm a b P). exact H3.
Qed.

(** The exact sum is a multiple of 2^G of at most 24 bits. *)
Lemma exact_value G ts : exact_range G ts -> exists m, qsum ts = (qz m * pow2 G)%Qc /\ - 2 ^ 23 <= m <= 2 ^ 23.
Proof.
  intros [H1 [H2 H3]]. fold (asum ts) in H3.
  assert (E : exists m, qsum ts = (qz m * pow2 G)%Qc).
  { clear H3. induction H2 as [|t ts [m ->] _ [n E]]; [exists 0; unfold qsum; cbn [fold_right]; rewrite qz_0; ring|].
    exists (m + n). unfold qsum in *. cbn [fold_right]. rewrite E, qz_add. ring. }
  destruct E as [m E]. exists m. split; [exact E|]. pose proof (qsum_le_asum ts) as L. rewrite E, qabs_scale, qabs_qz in L.
  assert (B : (qz (Z.abs m) * pow2 G <= qz (2 ^ 23) * pow2 G)%Qc).
  { rewrite <- (pow2_Z 23) by lia. rewrite <- pow2_add. replace (23 + G) with (G + 23) by lia. eapply Qcle_trans; eassumption. }
  assert (B' : (qz (Z.abs m) <= qz (2 ^ 23))%Qc).
  { destruct (Qclt_le_dec (qz (2 ^ 23)) (qz (Z.abs m))) as [C|C]; [|exact C]. exfalso.
    assert (qz (2 ^ 23) * pow2 G < qz (Z.abs m) * pow2 G)%Qc by (apply qmul_lt_r; [apply pow2_pos|exact C]). qlra. }
  apply (proj1 (qz_le _ _)) in B'. lia.
Qed.
Lemma exact_float G ts : exact_range G ts -> float32 (qsum ts).
Proof. intros H. pose proof H as [H1 _]. destruct (exact_value G ts H) as [m [-> B]]. apply float_grid; lia. Qed.

(** Any order of summation gives the exact sum. *)
Lemma sums_exact ps v : sums_to ps v -> forall G, exact_range G (map prod_of ps) -> v = qsum (map prod_of ps).
Proof.
  induction 1 as [|x w|x w ps v _ IH|ps qs u v _ IH1 _ IH2|ps qs v P _ IH]; intros G H.
  - reflexivity.
  - pose proof (exact_float _ _ H) as F. unfold qsum in F |- *. cbn [map fold_right] in F |- *. rewrite qz_0, Qcplus_0_r in *. apply rn32_id. exact F.
  - destruct (exact_range_app G [prod_of (x, w)] _ H) as [_ HT]. rewrite (IH G HT). apply rn32_id. exact (exact_float _ _ H).
  - rewrite map_app in *. destruct (exact_range_app G _ _ H) as [H1 H2]. rewrite (IH1 G H1), (IH2 G H2), <- qsum_app. apply rn32_id. exact (exact_float _ _ H).
  - assert (P' : Permutation (map prod_of ps) (map prod_of qs)) by (apply Permutation_map; exact P).
    rewrite (IH G), (qsum_perm _ _ P'); [reflexivity|]. apply (exact_range_perm G _ _ (Permutation_sym P') H).
Qed.

(** Products and a bias on top. *)
Lemma bias_exact G ps v b : sums_to ps v -> exact_range G (map prod_of ps ++ [b]) -> rn32 (v + b)%Qc = (qsum (map prod_of ps) + b)%Qc.
Proof.
  intros S H. destruct (exact_range_app _ _ _ H) as [H1 _]. rewrite (sums_exact _ _ S G H1).
  pose proof (exact_float _ _ H) as F. rewrite qsum_app in F. unfold qsum at 2 in F. cbn [fold_right] in F. rewrite qz_0, Qcplus_0_r in F. apply rn32_id. exact F.
Qed.

(** Values of 24 bits are not among the exceptions of rounding by adding 1/2. *)
Lemma no_exception m E : - 2 ^ 23 <= m <= 2 ^ 23 -> ~ half_exception (qz m * pow2 E)%Qc.
Proof.
  intros Hm [H|[k [H [O B]]]].
  - replace (qhalf - pow2 (-25))%Qc with (qz (2 ^ 24 - 1) * pow2 (-25))%Qc in H by (apply Qc_is_canon; vm_compute; reflexivity).
    destruct (Z.le_gt_cases E (-25)) as [L|L].
    + rewrite (regrid (2 ^ 24 - 1) (-25) E L) in H. apply pow2_mul_cancel_eq, qz_inj in H.
      assert (0 < 2 ^ (-25 - E)) by (apply Z.pow_pos_nonneg; lia). nia.
    + rewrite (regrid m E (-25)) in H by lia. apply pow2_mul_cancel_eq, qz_inj in H.
      replace (E - -25) with (Z.succ (E + 24)) in H by lia. rewrite Z.pow_succ_r in H by lia. lia.
  - replace (qz k) with (qz k * pow2 0)%Qc in H by (rewrite pow2_0, qz1; ring).
    destruct (Z.le_gt_cases E 0) as [L|L].
    + rewrite (regrid k 0 E L) in H. apply pow2_mul_cancel_eq, qz_inj in H. assert (0 < 2 ^ (0 - E)) by (apply Z.pow_pos_nonneg; lia). nia.
    + rewrite (regrid m E 0) in H by lia. apply pow2_mul_cancel_eq, qz_inj in H. replace (E - 0) with (Z.succ (E - 1)) in H by lia.
      rewrite Z.pow_succ_r in H by lia. destruct O as [j ->]. lia.
Qed.

Lemma value_quantizes m G r fl : - 2 ^ 23 <= m <= 2 ^ 23 -> -149 <= G <= 103 -> -100 <= r <= 100 -> -149 <= G + r <= 76 ->
  quantizes_exactly fl r (qz m * pow2 G)%Qc.
Proof.
  intros Hm HG Hr HR. assert (E : (qz m * pow2 G * pow2 r = qz m * pow2 (G + r))%Qc) by (rewrite pow2_add; ring).
  split; [exact Hr|]. split; [apply float_grid; lia|]. rewrite E. split; [apply float_grid; lia|]. intros _. split; [|apply no_exception; exact Hm].
  rewrite qabs_scale, qabs_qz. apply (Qcle_lt_trans _ (pow2 23 * pow2 76)).
  - apply (Qcle_trans _ (pow2 23 * pow2 (G + r))).
    + apply qmul_le_r; [pose proof (pow2_pos (G + r)); qlra|]. rewrite pow2_Z by lia. apply qz_le. lia.
    + rewrite <- !pow2_add. apply pow2_le. lia.
  - rewrite <- pow2_add. apply pow2_lt. lia.
Qed.

Lemma sum_quantizes r ts fl : sum_exact r ts -> quantizes_exactly fl r (qsum ts).
Proof.
  intros [Hr [G [H HR]]]. pose proof H as [HG _]. destruct (exact_value G ts H) as [m [-> B]]. apply value_quantizes; assumption.
Qed.

(** The forward pass of the quantizer on such values. *)
Lemma forward32_exact s f x : quantizes_exactly (Z.eqb s 3) (qround_even f) x -> forward32 (Z.eqb s 3) (qround_even f) x = qval s f x.
Proof.
  intros [Hr [Hx [Hs HN]]]. unfold qval. destruct (Z.eqb s 3); rewrite div_pow2.
  - apply forward_floor; assumption.
  - destruct (HN eq_refl) as [B N]. apply forward_round; try assumption; try lia; intros C; apply N; [left|right]; exact C.
Qed.

(** The proxy's quantizer. *)
Inductive modes : (Qc -> Qc) -> (Qc -> Qc) -> (Qc -> Z -> Z -> Qc) -> (Qc -> Z -> Z -> Qc) -> Prop :=
| M_rs : modes RND32 RND SAT32 SAT
| M_rw : modes RND32 RND WRAP32 WRAP
| M_ts : modes TRN32 TRN SAT32 SAT
| M_tw : modes TRN32 TRN WRAP32 WRAP.

Definition in_format (c : qcfg) : Prop := (kn c = 0 \/ kn c = 1) /\ kn c <= bits c <= 23 /\ -100 <= bits c - ints c <= 100.

Lemma sat_code rnd32 rnd sat32 sat c r : modes rnd32 rnd sat32 sat -> in_format c -> - 2 ^ 23 <= r <= 2 ^ 23 ->
  exists m, sat (qz r) (kn c) (bits c) = qz m /\ sat32 (qz r) (kn c) (bits c) = qz m /\ - 2 ^ 23 <= m <= 2 ^ 23.
Proof.
  intros M [Hk [Hb _]] Hr. set (k := kn c) in *. set (b := bits c) in *.
  assert (P : 0 < 2 ^ (b - k) <= 2 ^ 23) by (split; [apply Z.pow_pos_nonneg; lia|apply Z.pow_le_mono_r; lia]).
  assert (P2 : 0 < 2 ^ b <= 2 ^ 23) by (split; [apply Z.pow_pos_nonneg; lia|apply Z.pow_le_mono_r; lia]).
  assert (SS : exists m, SAT (qz r) k b = qz m /\ SAT32 (qz r) k b = qz m /\ - 2 ^ 23 <= m <= 2 ^ 23).
  { rewrite SAT32_exact, SAT_qz by lia. eexists. split; [reflexivity|]. split; [reflexivity|]. unfold lo, hi. nia. }
  assert (WW : exists m, WRAP (qz r) k b = qz m /\ WRAP32 (qz r) k b = qz m /\ - 2 ^ 23 <= m <= 2 ^ 23).
  { rewrite WRAP32_exact, WRAP_qz by lia. eexists. split; [reflexivity|]. split; [reflexivity|].
    pose proof (Z.mod_pos_bound (r - lo k b) (2 ^ b) ltac:(lia)) as Mb. unfold lo in *. nia. }
  destruct M; assumption.
Qed.

Lemma gfixed32_exact rnd32 rnd sat32 sat c G m : modes rnd32 rnd sat32 sat -> in_format c ->
  - 2 ^ 23 <= m <= 2 ^ 23 -> -149 <= G + (bits c - ints c) <= 0 ->
  let y := fval rnd sat c (qz m * pow2 G)%Qc in
  gfixed32 rnd32 sat32 (kn c) (bits c) (ints c) (qz m * pow2 G)%Qc = y /\
  exists m', y = (qz m' * pow2 (- (bits c - ints c)))%Qc /\ - 2 ^ 23 <= m' <= 2 ^ 23.
Proof.
  intros M F Hm HG. cbv zeta. unfold fval, gfixed32, gfixed_elem. cbv zeta. set (n := bits c - ints c) in *.
  assert (E : (qz m * pow2 G * pow2 n = qz m * pow2 (G + n))%Qc) by (rewrite pow2_add; ring). rewrite E.
  assert (FL : float32 (qz m * pow2 (G + n))%Qc) by (apply float_grid; lia). rewrite (rn32_id _ FL). set (s := (qz m * pow2 (G + n))%Qc) in *.
  assert (B : (- qz (2 ^ 23) <= s)%Qc /\ (s <= qz (2 ^ 23))%Qc).
  { apply qabs_le_iff. unfold s. rewrite qabs_scale, qabs_qz. apply (Qcle_trans _ (qz (Z.abs m) * pow2 0)).
    - rewrite !(Qcmult_comm (qz (Z.abs m))). apply qmul_le_r; [apply qz_le; lia|apply pow2_le; lia].
    - rewrite pow2_0, qz1, Qcmult_1_r. apply qz_le. lia. }
  assert (RR : exists r, rnd s = qz r /\ rnd32 s = qz r /\ - 2 ^ 23 <= r <= 2 ^ 23).
  { assert (R1 : RND32 s = RND s).
    { unfold RND32, RND. f_equal. pose proof (no_exception m (G + n) Hm) as N. fold s in N. apply floor_half; [exact FL| |]; intros C; apply N; [left|right]; exact C. }
    assert (B1 : - 2 ^ 23 <= qfloor (s + qhalf) <= 2 ^ 23).
    { pose proof (qfloor_le (s + qhalf)) as L. pose proof (qfloor_lt (s + qhalf)) as U. set (r := qfloor (s + qhalf)) in *. destruct B as [B1 B2].
      assert (qz (- 2 ^ 23) < qz r + qz 1)%Qc by (rewrite qz_opp; qlra). assert (qz r < qz (2 ^ 23) + qz 1)%Qc by qlra.
      rewrite <- qz_add in *. split; apply Z.lt_succ_r; unfold Z.succ; apply qz_lt; assumption. }
    assert (B2 : - 2 ^ 23 <= qfloor s <= 2 ^ 23).
    { pose proof (qfloor_le s) as L. pose proof (qfloor_lt s) as U. set (r := qfloor s) in *. destruct B as [B2 B3].
      assert (qz (- 2 ^ 23) < qz r + qz 1)%Qc by (rewrite qz_opp; qlra). assert (qz r < qz (2 ^ 23) + qz 1)%Qc by qlra.
      rewrite <- qz_add in *. split; apply Z.lt_succ_r; unfold Z.succ; apply qz_lt; assumption. }
    destruct M; first [exists (qfloor (s + qhalf)); split; [reflexivity|split; [exact R1|exact B1]]|exists (qfloor s); split; [reflexivity|split; [reflexivity|exact B2]]]. }
  destruct RR as [r [-> [-> Br]]]. destruct (sat_code _ _ _ _ c r M F Br) as [m' [-> [-> Bm]]].
  destruct F as [_ [_ Fn]]. fold n in Fn. rewrite div_pow2, rn32_id by (apply float_grid; lia). split; [reflexivity|].
  destruct (bits c =? 0).
  - exists 0. split; [change (qz 0) with (Q2Qc 0); ring|lia].
  - exists m'. split; [rewrite qz1; ring|exact Bm].
Qed.
