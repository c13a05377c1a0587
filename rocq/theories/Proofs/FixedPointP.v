(** Lemmas about the fixed-point quantizer model. *)
From Coq Require Import ZArith QArith Qcanon List Bool String Lia Lqa.
From Verif Require Import Base.Num Base.NumFacts Base.Tensor Model.FixedPoint Spec.Fixed.
Import ListNotations.
Open Scope Z_scope.
Local Open Scope string_scope.
Local Open Scope Z_scope.

(** ** Rounding *)
Ltac one_mode := first
  [ left; split; [reflexivity|]
  | right; left; split; [reflexivity|]
  | right; right; left; split; [reflexivity|]
  | right; right; right; left; split; [reflexivity|]
  | right; right; right; right; left; split; [reflexivity|]
  | right; right; right; right; right; left; split; [reflexivity|]
  | right; right; right; right; right; right; split; [reflexivity|] ].

Lemma rounds_to_inv mode x n : rounds_to mode x n -> In mode rounding_names.
Proof. unfold rounds_to, rounding_names; cbn. intuition (subst; auto 10). Qed.

Lemma tie_floor x : tie x -> x = (qz (qfloor x) + qhalf)%Qc.
Proof.
  intros [m ->]. f_equal. symmetry. f_equal.
  apply qfloor_unique; qlra.
Qed.

Lemma qsign_spec x : ((qz 0 < x)%Qc /\ qsign x = qz 1) \/ ((x < qz 0)%Qc /\ qsign x = qz (-1))
  \/ (x = qz 0 /\ qsign x = qz 0).
Proof.
  unfold qsign. qcases; auto. right; right; split; [qlra|reflexivity].
Qed.

Lemma TRN_spec x : exists n, TRN x = qz n /\ rounds_to "TRN" x n.
Proof.
  exists (qfloor x). split; [reflexivity|]. one_mode. split; [apply qfloor_le|apply qfloor_lt].
Qed.
Lemma RND_spec x : exists n, RND x = qz n /\ rounds_to "RND" x n.
Proof.
  exists (qfloor (x + qhalf)). split; [reflexivity|]. one_mode.
  pose proof (qfloor_le (x + qhalf)). pose proof (qfloor_lt (x + qhalf)).
  split; [split; qlra|]. intros [m ->].
  assert (qfloor (qz m + qhalf + qhalf) = m + 1) as ->.
  { apply qfloor_unique; rewrite qz_add; qlra. }
  rewrite qz_add. qlra.
Qed.
Lemma RND_MIN_INF_spec x : exists n, RND_MIN_INF x = qz n /\ rounds_to "RND_MIN_INF" x n.
Proof.
  exists (- qfloor (- x + qhalf)). split; [unfold RND_MIN_INF; rewrite qz_opp; reflexivity|]. one_mode.
  pose proof (qfloor_le (- x + qhalf)). pose proof (qfloor_lt (- x + qhalf)).
  rewrite qz_opp. split; [unfold nearest; rewrite qz_opp; split; qlra|]. intros [m ->].
  assert (qfloor (- (qz m + qhalf) + qhalf) = - m) as ->.
  { apply qfloor_unique; rewrite qz_opp; qlra. }
  rewrite qz_opp. qlra.
Qed.
Lemma RND_CONV_spec x : exists n, RND_CONV x = qz n /\ rounds_to "RND_CONV" x n.
Proof.
  exists (qround_even x). split; [reflexivity|]. one_mode.
  split; [apply qround_even_near|]. intros T.
  apply Z.even_spec. apply qround_even_tie, tie_floor, T.
Qed.
Lemma TRN_ZERO_spec x : exists n, TRN_ZERO x = qz n /\ rounds_to "TRN_ZERO" x n.
Proof.
  unfold TRN_ZERO. pose proof (qfloor_le (qabs x)). pose proof (qfloor_lt (qabs x)).
  destruct (qsign_spec x) as [[S ->]|[[S ->]|[S ->]]];
    destruct (qabs_spec x) as [[A E]|[A E]]; try (exfalso; clear - S A; qlra); rewrite E in *.
  - exists (qfloor x). split; [qlra|]. one_mode. left. split; [qlra|]. split; qlra.
  - exists (- qfloor (- x)). split; [rewrite qz_opp; qlra|]. one_mode.
    right. split; [assumption|]. rewrite qz_opp. split; qlra.
  - exists 0. split; [q_prep; lra|]. one_mode. left. split; [assumption|]. split; qlra.
Qed.
Lemma RND_ZERO_spec x : exists n, RND_ZERO x = qz n /\ rounds_to "RND_ZERO" x n.
Proof.
  unfold RND_ZERO. pose proof (qfloor_le (- qabs x + qhalf)). pose proof (qfloor_lt (- qabs x + qhalf)).
  destruct (qsign_spec x) as [[S ->]|[[S ->]|[S ->]]];
    destruct (qabs_spec x) as [[A E]|[A E]]; try (exfalso; clear - S A; qlra); rewrite E in *.
  - exists (- qfloor (- x + qhalf)). split; [rewrite qz_opp; qlra|]. one_mode.
    unfold nearest; rewrite qz_opp. split; [split; qlra|].
    intros [m ->].
    assert (qfloor (- (qz m + qhalf) + qhalf) = - m) as ->.
    { apply qfloor_unique; rewrite qz_opp; qlra. }
    rewrite qz_opp. split; qlra.
  - assert (EE : (- - x)%Qc = x) by qlra. rewrite EE in *.
    exists (qfloor (x + qhalf)). split; [qlra|]. one_mode.
    split; [split; qlra|].
    intros [m ->].
    assert (qfloor (qz m + qhalf + qhalf) = m + 1) as ->.
    { apply qfloor_unique; rewrite qz_add; qlra. }
    rewrite qz_add. split; qlra.
  - exists 0. split; [q_prep; lra|]. one_mode. split; [split; qlra|]. intros _. split; qlra.
Qed.
Lemma RND_INF_spec x : exists n, RND_INF x = qz n /\ rounds_to "RND_INF" x n.
Proof.
  unfold RND_INF. pose proof (qfloor_le (qabs x + qhalf)). pose proof (qfloor_lt (qabs x + qhalf)).
  destruct (qsign_spec x) as [[S ->]|[[S ->]|[S ->]]];
    destruct (qabs_spec x) as [[A E]|[A E]]; try (exfalso; clear - S A; qlra); rewrite E in *.
  - exists (qfloor (x + qhalf)). split; [qlra|]. one_mode.
    split; [split; qlra|].
    intros [m ->].
    assert (qfloor (qz m + qhalf + qhalf) = m + 1) as ->.
    { apply qfloor_unique; rewrite qz_add; qlra. }
    rewrite qz_add. split; qlra.
  - exists (- qfloor (- x + qhalf)). split; [rewrite qz_opp; qlra|]. one_mode.
    unfold nearest; rewrite qz_opp. split; [split; qlra|].
    intros [m ->].
    assert (qfloor (- (qz m + qhalf) + qhalf) = - m) as ->.
    { apply qfloor_unique; rewrite qz_opp; qlra. }
    rewrite qz_opp. split; qlra.
  - exists 0. split; [q_prep; lra|]. one_mode. split; [split; qlra|]. intros _. split; qlra.
Qed.

Lemma rnd_map_cases R rnd : RND_MAP R = Some rnd ->
  (R = "RND" /\ rnd = RND) \/ (R = "RND_ZERO" /\ rnd = RND_ZERO)
  \/ (R = "RND_MIN_INF" /\ rnd = RND_MIN_INF) \/ (R = "RND_INF" /\ rnd = RND_INF)
  \/ (R = "RND_CONV" /\ rnd = RND_CONV) \/ (R = "TRN_ZERO" /\ rnd = TRN_ZERO)
  \/ (R = "TRN" /\ rnd = TRN).
Proof.
  unfold RND_MAP.
  repeat match goal with
  | |- context [String.eqb R ?s] => destruct (String.eqb_spec R s); [subst|]
  end; intros H; try discriminate; injection H as <-; intuition.
Qed.
Lemma sat_map_cases S sat : SAT_MAP S = Some sat ->
  (S = "SAT" /\ sat = SAT) \/ (S = "SAT_ZERO" /\ sat = SAT_ZERO) \/ (S = "SAT_SYM" /\ sat = SAT_SYM)
  \/ (S = "WRAP" /\ sat = WRAP) \/ (S = "WRAP_SM" /\ sat = WRAP_SM).
Proof.
  unfold SAT_MAP.
  repeat match goal with
  | |- context [String.eqb S ?s] => destruct (String.eqb_spec S s); [subst|]
  end; intros H; try discriminate; injection H as <-; intuition.
Qed.
Lemma rnd_map_some R : In R rounding_names <-> exists rnd, RND_MAP R = Some rnd.
Proof.
  split.
  - unfold rounding_names. cbn. intuition (subst; cbn; eauto).
  - intros [rnd H]. apply rnd_map_cases in H. unfold rounding_names; cbn. intuition (subst; auto 10).
Qed.
Lemma sat_map_some S : In S overflow_names <-> exists sat, SAT_MAP S = Some sat.
Proof.
  split.
  - unfold overflow_names. cbn. intuition (subst; cbn; eauto).
  - intros [rnd H]. apply sat_map_cases in H. unfold overflow_names; cbn. intuition (subst; auto 10).
Qed.
Lemma rnd_spec R rnd x : RND_MAP R = Some rnd -> exists n, rnd x = qz n /\ rounds_to R x n.
Proof.
  intros H. apply rnd_map_cases in H.
  destruct H as [H|[H|[H|[H|[H|[H|H]]]]]]; destruct H as [-> ->].
  - apply RND_spec. - apply RND_ZERO_spec. - apply RND_MIN_INF_spec. - apply RND_INF_spec.
  - apply RND_CONV_spec. - apply TRN_ZERO_spec. - apply TRN_spec.
Qed.

Lemma nearest_mono_tie x y n m : (x <= y)%Qc -> nearest x n -> nearest y m -> m < n ->
  x = y /\ n = m + 1 /\ x = (qz m + qhalf)%Qc.
Proof.
  intros H [A B] [C D] L. assert (L' : m + 1 <= n) by lia. apply qz_le in L'. rewrite qz_add in L'.
  assert (E : qz n = qz (m + 1)). { rewrite qz_add. qlra. }
  apply qz_inj in E. split; [qlra|]. split; [lia|]. qlra.
Qed.

Lemma rounds_to_mono mode x y n m :
  (x <= y)%Qc -> rounds_to mode x n -> rounds_to mode y m -> n <= m.
Proof.
  intros L H1 H2. unfold rounds_to in *.
  destruct H1 as [H1|[H1|[H1|[H1|[H1|[H1|H1]]]]]]; destruct H1 as [-> H1];
  destruct H2 as [H2|[H2|[H2|[H2|[H2|[H2|H2]]]]]]; destruct H2 as [E H2]; try discriminate E; clear E.
  - assert (n < m + 1); [|lia]. apply qz_lt. rewrite qz_add. destruct H1, H2. qlra.
  - destruct H1 as [[P H1]|[P H1]], H2 as [[P' H2]|[P' H2]]; destruct H1, H2.
    + assert (n < m + 1); [|lia]. apply qz_lt. rewrite qz_add. qlra.
    + exfalso; qlra.
    + assert (n < 0 + 1); [apply qz_lt; rewrite qz_add; qlra|].
      assert (-1 < m); [apply qz_lt; qlra|]. lia.
    + assert (n < m + 1); [|lia]. apply qz_lt. rewrite qz_add. qlra.
  - destruct H1 as [N1 T1], H2 as [N2 T2]. destruct (Z_lt_le_dec m n); [|lia]. exfalso.
    destruct (nearest_mono_tie _ _ _ _ L N1 N2) as [<- [-> E]]; [assumption|].
    assert (T : tie x) by (exists m; assumption). specialize (T2 T). qlra.
  - destruct H1 as [N1 T1], H2 as [N2 T2]. destruct (Z_lt_le_dec m n); [|lia]. exfalso.
    destruct (nearest_mono_tie _ _ _ _ L N1 N2) as [<- [-> E]]; [assumption|].
    assert (T : tie x) by (exists m; assumption). specialize (T1 T). rewrite qz_add in T1. qlra.
  - destruct H1 as [N1 T1], H2 as [N2 T2]. destruct (Z_lt_le_dec m n); [|lia]. exfalso.
    destruct (nearest_mono_tie _ _ _ _ L N1 N2) as [<- [-> E]]; [assumption|].
    assert (T : tie x) by (exists m; assumption). destruct (T1 T) as [P1 _], (T2 T) as [_ P2].
    destruct (Z_lt_le_dec m 0) as [M|M].
    + assert (M' : m + 1 <= 0) by lia. apply qz_le in M'. rewrite qz_add in M'.
      assert ((x < qz m)%Qc) by (apply P2; qlra). qlra.
    + apply qz_le in M. rewrite qz_add in P1. assert ((qz m + qz 1 < x)%Qc) by (apply P1; qlra). qlra.
  - destruct H1 as [N1 T1], H2 as [N2 T2]. destruct (Z_lt_le_dec m n); [|lia]. exfalso.
    destruct (nearest_mono_tie _ _ _ _ L N1 N2) as [<- [-> E]]; [assumption|].
    assert (T : tie x) by (exists m; assumption). destruct (T1 T) as [_ P1], (T2 T) as [P2 _].
    destruct (Z_lt_le_dec m 0) as [M|M].
    + assert (M' : m + 1 <= 0) by lia. apply qz_le in M'. rewrite qz_add in M'.
      rewrite qz_add in P1. assert ((qz m + qz 1 < x)%Qc) by (apply P1; qlra). qlra.
    + apply qz_le in M. assert ((x < qz m)%Qc) by (apply P2; qlra). qlra.
  - destruct H1 as [N1 T1], H2 as [N2 T2]. destruct (Z_lt_le_dec m n); [|lia]. exfalso.
    destruct (nearest_mono_tie _ _ _ _ L N1 N2) as [<- [-> E]]; [assumption|].
    assert (T : tie x) by (exists m; assumption). destruct (T1 T) as [a Ha], (T2 T) as [b Hb]. lia.
Qed.

Lemma rounds_to_fun mode x n m : rounds_to mode x n -> rounds_to mode x m -> n = m.
Proof.
  intros H1 H2. assert (R : (x <= x)%Qc) by qlra.
  pose proof (rounds_to_mono _ _ _ _ _ R H1 H2). pose proof (rounds_to_mono _ _ _ _ _ R H2 H1). lia.
Qed.

Lemma not_tie_qz n : ~ tie (qz n).
Proof.
  intros T. apply tie_floor in T. rewrite qfloor_qz in T. qlra.
Qed.
Lemma rounds_to_qz mode n : In mode rounding_names -> rounds_to mode (qz n) n.
Proof.
  unfold rounding_names; cbn; intros H.
  assert (N : nearest (qz n) n) by (split; qlra).
  pose proof (not_tie_qz n) as T.
  repeat destruct H as [H|H]; try contradiction H; subst mode; one_mode; try (split; [assumption|]; intros T'; contradiction (T T')).
  - split; qlra.
  - destruct (Z_lt_le_dec n 0) as [L|L]; [right|left]; split; try (apply qz_lt; lia); try (apply qz_le; lia); split; qlra.
Qed.
Lemma rnd_qz R rnd n : RND_MAP R = Some rnd -> rnd (qz n) = qz n.
Proof.
  intros H. destruct (rnd_spec R rnd (qz n) H) as [m [E S]]. rewrite E. f_equal.
  eapply rounds_to_fun; [exact S|]. apply rounds_to_qz. apply rnd_map_some; eauto.
Qed.

(** ** Overflow *)
Definition hi (k b : Z) : Z := 2 ^ (b - k) - 1.
Definition lo (k b : Z) : Z := - (k * 2 ^ (b - k)).

Lemma pow_split b : 0 <= b -> 2 ^ (b + 1) = 2 * 2 ^ b.
Proof. intros; rewrite Z.pow_add_r by lia. lia. Qed.
Lemma hi_lo k b : k = 0 \/ k = 1 -> k <= b -> hi k b - lo k b + 1 = 2 ^ b.
Proof.
  unfold hi, lo. intros [->| ->] H; [rewrite !Z.sub_0_r; lia|].
  replace b with ((b - 1) + 1) at 3 by lia. rewrite pow_split by lia. lia.
Qed.
Lemma lo_le_hi k b : k = 0 \/ k = 1 -> k <= b -> lo k b <= hi k b.
Proof.
  intros Hk Hb. pose proof (hi_lo k b Hk Hb). pose proof (Z.pow_pos_nonneg 2 b). lia.
Qed.
Lemma code_iff k b m : k = 0 \/ k = 1 -> k <= b -> (code k b m <-> lo k b <= m <= hi k b).
Proof.
  unfold code, lo, hi. intros [->| ->] H; try (replace (b - 0) with b by lia); split; intros; try lia.
Qed.

Lemma high_qz k b : k <= b -> (pow2 (b - k) - qz 1)%Qc = qz (hi k b).
Proof. intros. rewrite pow2_Z by lia. unfold hi. rewrite qz_sub. reflexivity. Qed.
Lemma low_qz k b : k <= b -> (- (pow2 (b - k) - qz 1 + qz 1) * qz k)%Qc = qz (lo k b).
Proof. intros. rewrite pow2_Z by lia. unfold lo. rewrite qz_opp, qz_mul. ring. Qed.

Lemma qmin_qz a b : qmin (qz a) (qz b) = qz (Z.min a b).
Proof.
  unfold qmin. destruct (qleb_spec (qz a) (qz b)) as [H|H]; [apply (proj1 (qz_le _ _)) in H|apply (proj1 (qz_lt _ _)) in H]; f_equal; lia.
Qed.
Lemma qmax_qz a b : qmax (qz a) (qz b) = qz (Z.max a b).
Proof.
  unfold qmax. destruct (qleb_spec (qz a) (qz b)) as [H|H]; [apply (proj1 (qz_le _ _)) in H|apply (proj1 (qz_lt _ _)) in H]; f_equal; lia.
Qed.
Lemma qabs_qz a : qabs (qz a) = qz (Z.abs a).
Proof.
  destruct (qabs_spec (qz a)) as [[H ->]|[H ->]]; [apply (proj1 (qz_le _ _)) in H|apply (proj1 (qz_lt _ _)) in H]; rewrite <- ?qz_opp; f_equal; lia.
Qed.
Lemma clip_qz a l h : clip_by_value (qz a) (qz l) (qz h) = qz (Z.max (Z.min a h) l).
Proof. unfold clip_by_value. rewrite qmin_qz, qmax_qz. reflexivity. Qed.
Lemma qdiv_mul x y : y <> Q2Qc 0 -> ((x / y) * y)%Qc = x.
Proof. intros H. unfold Qcdiv. rewrite <- Qcmult_assoc, (Qcmult_comm (/ y)), Qcmult_inv_r by assumption. ring. Qed.
Lemma qfloor_div a n : 0 < n -> qfloor (qz a / qz n)%Qc = a / n.
Proof.
  intros H. assert (N : qz n <> Q2Qc 0). { change (Q2Qc 0) with (qz 0). intros E. apply qz_inj in E. lia. }
  pose proof (qdiv_mul (qz a) (qz n) N) as E. assert (P : (qz 0 < qz n)%Qc) by (apply qz_lt; assumption).
  pose proof (Z.div_mod a n ltac:(lia)) as D. pose proof (Z.mod_pos_bound a n H) as B.
  apply qfloor_unique.
  - apply (qmul_le_r_inv _ _ _ P). rewrite E, <- qz_mul. apply qz_le. lia.
  - apply (qmul_lt_r_inv _ _ _ P). rewrite E, <- qz_add, <- qz_mul. apply qz_lt. lia.
Qed.
Lemma floormod_qz a n : 0 < n -> floormod (qz a) (qz n) = qz (a mod n).
Proof.
  intros H. unfold floormod. rewrite qfloor_div by assumption. rewrite <- qz_mul, <- qz_sub. f_equal.
  rewrite Z.mod_eq by lia. lia.
Qed.

Lemma SAT_qz k b v : k <= b -> SAT (qz v) k b = qz (Z.max (Z.min v (hi k b)) (lo k b)).
Proof. intros H. unfold SAT. cbv zeta. rewrite low_qz, high_qz by assumption. apply clip_qz. Qed.
Lemma SAT_SYM_qz k b v : k <= b -> SAT_SYM (qz v) k b = qz (Z.max (Z.min v (hi k b)) (- (k * hi k b))).
Proof.
  intros H. unfold SAT_SYM. cbv zeta. rewrite high_qz by assumption.
  replace (- qz (hi k b) * qz k)%Qc with (qz (- (k * hi k b))) by (rewrite qz_opp, qz_mul; ring).
  apply clip_qz.
Qed.
Lemma SAT_ZERO_qz k b v : k <= b ->
  SAT_ZERO (qz v) k b = qz (if (Z.leb v (hi k b) && Z.leb (lo k b) v)%bool then v else 0).
Proof.
  intros H. unfold SAT_ZERO. cbv zeta.
  replace ((- (pow2 (b - k) - qz 1) - qz 1) * qz k)%Qc with (qz (lo k b)) by (rewrite <- low_qz by assumption; ring).
  rewrite high_qz by assumption.
  destruct (qleb_spec (qz v) (qz (hi k b))) as [A|A], (qleb_spec (qz (lo k b)) (qz v)) as [B|B];
    rewrite ?qz_le in A; rewrite ?qz_lt in A; rewrite ?qz_le in B; rewrite ?qz_lt in B;
    destruct (Z.leb_spec v (hi k b)), (Z.leb_spec (lo k b) v); try lia; cbn [andb];
    try (qlra); q_prep; lra.
Qed.
Lemma WRAP_qz k b v : k = 0 \/ k = 1 -> k <= b ->
  WRAP (qz v) k b = qz ((v - lo k b) mod 2 ^ b + lo k b).
Proof.
  intros Hk H. unfold WRAP. cbv zeta. rewrite low_qz, high_qz by assumption.
  rewrite <- !qz_sub. change (qz 1) with (qz 1). rewrite <- (qz_add _ 1), hi_lo by assumption.
  rewrite floormod_qz by (apply Z.pow_pos_nonneg; lia). rewrite <- qz_add. reflexivity.
Qed.
Definition wrap_sm (k b v : Z) : Z :=
  let M := (v - hi k b - 1) mod 2 ^ (b + 1) in
  if Z.leb (2 ^ b) M then M - 2 ^ b + lo k b else 2 ^ b - 1 - M + lo k b.
Lemma WRAP_SM_qz k b v : k = 0 \/ k = 1 -> k <= b -> WRAP_SM (qz v) k b = qz (wrap_sm k b v).
Proof.
  intros Hk H. unfold WRAP_SM, wrap_sm. cbv zeta. rewrite low_qz, high_qz by assumption.
  rewrite <- !qz_sub. rewrite <- (qz_add _ 1), hi_lo by assumption. rewrite <- qz_mul.
  assert (P : 0 < 2 ^ b) by (apply Z.pow_pos_nonneg; lia).
  replace (2 ^ b * 2) with (2 ^ (b + 1)) by (rewrite pow_split by lia; lia).
  rewrite floormod_qz by (apply Z.pow_pos_nonneg; lia).
  set (M := (v - hi k b - 1) mod 2 ^ (b + 1)).
  assert (E : (qz (2 ^ (b + 1)) * qhalf)%Qc = qz (2 ^ b)).
  { rewrite pow_split by lia. rewrite qz_mul. qlra. }
  rewrite E. destruct (Z.leb_spec (2 ^ b) M) as [L|L].
  - destruct (qabs_spec (qz M - qz (2 ^ b) + qhalf)) as [[A ->]|[A _]].
    + rewrite qz_add, qz_sub. qlra.
    + apply qz_le in L. exfalso; qlra.
  - assert (L' : M + 1 <= 2 ^ b) by lia. apply qz_le in L'. rewrite qz_add in L'.
    destruct (qabs_spec (qz M - qz (2 ^ b) + qhalf)) as [[A _]|[A ->]].
    + exfalso; qlra.
    + rewrite qz_add, !qz_sub. qlra.
Qed.

Lemma wrap_sm_range k b v : k = 0 \/ k = 1 -> k <= b -> lo k b <= wrap_sm k b v <= hi k b.
Proof.
  intros Hk H. unfold wrap_sm. pose proof (hi_lo k b Hk H) as E.
  pose proof (Z.mod_pos_bound (v - hi k b - 1) (2 ^ (b + 1)) ltac:(apply Z.pow_pos_nonneg; lia)) as B.
  rewrite (pow_split b) in B at 3 by lia. cbv zeta. destruct (Z.leb_spec (2 ^ b) ((v - hi k b - 1) mod 2 ^ (b + 1))); lia.
Qed.

Lemma sat_code S sat k b v : SAT_MAP S = Some sat -> k = 0 \/ k = 1 -> k <= b ->
  exists c, sat (qz v) k b = qz c /\ code k b c.
Proof.
  intros HS Hk Hb. pose proof (lo_le_hi k b Hk Hb) as L. apply sat_map_cases in HS.
  assert (P : 0 < 2 ^ (b - k)) by (apply Z.pow_pos_nonneg; lia).
  destruct HS as [HS|[HS|[HS|[HS|HS]]]]; destruct HS as [-> ->].
  - rewrite SAT_qz by assumption. eexists; split; [reflexivity|]. apply code_iff; lia.
  - rewrite SAT_ZERO_qz by assumption. eexists; split; [reflexivity|]. apply code_iff; [assumption..|].
    unfold hi, lo in *. destruct (Z.leb_spec v (2 ^ (b - k) - 1)), (Z.leb_spec (- (k * 2 ^ (b - k))) v); cbn [andb]; try lia; destruct Hk; subst; lia.
  - rewrite SAT_SYM_qz by assumption. eexists; split; [reflexivity|]. apply code_iff; [assumption..|].
    unfold hi, lo in *. destruct Hk; subst; lia.
  - rewrite WRAP_qz by assumption. eexists; split; [reflexivity|]. apply code_iff; [assumption..|].
    pose proof (hi_lo k b Hk Hb).
    pose proof (Z.mod_pos_bound (v - lo k b) (2 ^ b) ltac:(apply Z.pow_pos_nonneg; lia)). lia.
  - rewrite WRAP_SM_qz by assumption. eexists; split; [reflexivity|]. apply code_iff; [assumption..|].
    apply wrap_sm_range; assumption.
Qed.

Lemma wrap_sm_id k b v : k = 0 \/ k = 1 -> k <= b -> lo k b <= v <= hi k b -> wrap_sm k b v = v.
Proof.
  intros Hk H R. unfold wrap_sm. pose proof (hi_lo k b Hk H) as E. cbv zeta.
  assert (P : 0 < 2 ^ b) by (apply Z.pow_pos_nonneg; lia).
  replace ((v - hi k b - 1) mod 2 ^ (b + 1)) with (v - hi k b - 1 + 2 ^ (b + 1)).
  - rewrite pow_split by lia. destruct (Z.leb_spec (2 ^ b) (v - hi k b - 1 + 2 * 2 ^ b)); lia.
  - apply Z.mod_unique_pos with (q := -1); rewrite pow_split by lia; lia.
Qed.

Lemma sat_id S sat k b v : SAT_MAP S = Some sat -> k = 0 \/ k = 1 -> k <= b ->
  code k b v -> (S = "SAT_SYM"%string -> k = 1 -> v <> - 2 ^ (b - 1)) -> sat (qz v) k b = qz v.
Proof.
  intros HS Hk Hb C X. apply code_iff in C; [|assumption..]. apply sat_map_cases in HS.
  destruct HS as [HS|[HS|[HS|[HS|HS]]]]; destruct HS as [-> ->].
  - rewrite SAT_qz by assumption. f_equal. lia.
  - rewrite SAT_ZERO_qz by assumption. f_equal.
    destruct (Z.leb_spec v (hi k b)), (Z.leb_spec (lo k b) v); cbn [andb]; lia.
  - rewrite SAT_SYM_qz by assumption. f_equal. specialize (X eq_refl). unfold hi, lo in *. destruct Hk; subst; lia.
  - rewrite WRAP_qz by assumption. f_equal. pose proof (hi_lo k b Hk Hb). rewrite Z.mod_small by lia. lia.
  - rewrite WRAP_SM_qz by assumption. f_equal. apply wrap_sm_id; assumption.
Qed.

(** ** The quantizer *)
Lemma gfixed_some x k b i R S y : gfixed_quantizer x k b i R S = Ok y ->
  exists rnd sat, RND_MAP R = Some rnd /\ SAT_MAP S = Some sat /\ y = gfixed_elem rnd sat k b i x.
Proof.
  unfold gfixed_quantizer. destruct (RND_MAP R) as [rnd|], (SAT_MAP S) as [sat|]; intros H; try discriminate.
  injection H as <-. eauto.
Qed.
Lemma gfixed_ok x k b i R S : In R rounding_names -> In S overflow_names ->
  exists y, gfixed_quantizer x k b i R S = Ok y.
Proof.
  intros HR HS. apply rnd_map_some in HR as [rnd HR]. apply sat_map_some in HS as [sat HS].
  unfold gfixed_quantizer. rewrite HR, HS. eauto.
Qed.
Lemma gfixed_raise x k b i R S :
  gfixed_quantizer x k b i R S = Raise <-> ~ (In R rounding_names /\ In S overflow_names).
Proof.
  split.
  - intros H [HR HS]. destruct (gfixed_ok x k b i R S HR HS) as [y E]. congruence.
  - intros H. unfold gfixed_quantizer.
    destruct (RND_MAP R) eqn:ER, (SAT_MAP S) eqn:ES; try reflexivity. exfalso. apply H.
    split; [apply rnd_map_some|apply sat_map_some]; eauto.
Qed.

Lemma gfixed_elem_nz rnd sat k b i x : b <> 0 ->
  gfixed_elem rnd sat k b i x = (sat (rnd (x * pow2 (b - i))) k b * pow2 (i - b))%Qc.
Proof.
  intros H. unfold gfixed_elem. destruct (Z.eqb_spec b 0); [contradiction|]. cbv zeta.
  rewrite div_pow2. replace (- (b - i)) with (i - b) by lia. change (qz 1) with (Q2Qc 1). ring.
Qed.
Lemma gfixed_elem_z rnd sat k i x : gfixed_elem rnd sat k 0 i x = qz 0.
Proof. unfold gfixed_elem. cbv zeta. cbn [Z.eqb]. change (qz 0) with (Q2Qc 0). ring. Qed.

Lemma code_zero k b : k = 0 \/ k = 1 -> k <= b -> code k b 0.
Proof.
  intros Hk Hb. apply code_iff; [assumption..|]. pose proof (Z.pow_pos_nonneg 2 (b - k)). unfold hi, lo. destruct Hk; subst; lia.
Qed.

Lemma gfixed_code R S rnd sat k b i x :
  RND_MAP R = Some rnd -> SAT_MAP S = Some sat -> k = 0 \/ k = 1 -> k <= b -> b <> 0 ->
  exists n c, rounds_to R (x * pow2 (b - i)) n /\ sat (qz n) k b = qz c /\ code k b c
    /\ gfixed_elem rnd sat k b i x = (qz c * pow2 (i - b))%Qc.
Proof.
  intros HR HS Hk Hb Hz. rewrite gfixed_elem_nz by assumption.
  destruct (rnd_spec R rnd (x * pow2 (b - i)) HR) as [n [En Hn]].
  destruct (sat_code S sat k b n HS Hk Hb) as [c [Ec Hc]].
  exists n, c. repeat split; try assumption. rewrite En, Ec. reflexivity.
Qed.

Lemma gfixed_representable x k b i R S y :
  k = 0 \/ k = 1 -> k <= b -> b <> 0 -> gfixed_quantizer x k b i R S = Ok y -> representable k b i y.
Proof.
  intros Hk Hb Hz H. apply gfixed_some in H as [rnd [sat [HR [HS ->]]]].
  destruct (gfixed_code R S rnd sat k b i x HR HS Hk Hb Hz) as [n [c [_ [_ [C E]]]]].
  exists c. split; assumption.
Qed.

Lemma mul_pow2_id x a b : a + b = 0 -> (x * pow2 a * pow2 b)%Qc = x.
Proof. intros H. replace b with (- a) by lia. apply mul_pow2_cancel. Qed.

Lemma gfixed_id x k b i R S y :
  k = 0 \/ k = 1 -> k <= b -> b <> 0 -> representable k b i x ->
  (S = "SAT_SYM"%string -> k = 1 -> x <> (qz (- 2 ^ (b - 1)) * pow2 (i - b))%Qc) ->
  gfixed_quantizer x k b i R S = Ok y -> y = x.
Proof.
  intros Hk Hb Hz [m [C E]] X H. apply gfixed_some in H as [rnd [sat [HR [HS ->]]]].
  rewrite gfixed_elem_nz by assumption. subst x.
  rewrite mul_pow2_id by lia. rewrite (rnd_qz R) by assumption.
  rewrite (sat_id S); try assumption; [reflexivity|].
  intros e1 e2 e3. apply (X e1 e2). rewrite e3. reflexivity.
Qed.

Lemma sat_sym_range k b v c : k = 1 -> k <= b -> SAT_SYM (qz v) k b = qz c -> c <> - 2 ^ (b - 1).
Proof.
  intros -> Hb. rewrite SAT_SYM_qz by assumption. intros E. apply qz_inj in E.
  assert (0 < 2 ^ (b - 1)) by (apply Z.pow_pos_nonneg; lia). unfold hi in E. lia.
Qed.

Lemma gfixed_idem x k b i R S y z :
  k = 0 \/ k = 1 -> k <= b ->
  gfixed_quantizer x k b i R S = Ok y -> gfixed_quantizer y k b i R S = Ok z -> z = y.
Proof.
  intros Hk Hb Hy Hz. destruct (Z.eq_dec b 0) as [->|Hb0].
  - apply gfixed_some in Hy as [? [? [_ [_ ->]]]]. apply gfixed_some in Hz as [? [? [_ [_ ->]]]].
    rewrite !gfixed_elem_z. reflexivity.
  - pose proof (gfixed_representable _ _ _ _ _ _ _ Hk Hb Hb0 Hy) as RY.
    eapply gfixed_id; try eassumption. intros ES Ek EY. subst S.
    apply gfixed_some in Hy as [rnd [sat [HR [HS E]]]].
    destruct (gfixed_code R "SAT_SYM" rnd sat k b i x HR HS Hk Hb Hb0) as [n [c [_ [Sc [_ Ec]]]]].
    rewrite <- E in Ec. rewrite EY in Ec.
    assert (E' : qz (- 2 ^ (b - 1)) = qz c).
    { rewrite <- (mul_pow2_id (qz (- 2 ^ (b - 1))) (i - b) (b - i)) by lia. rewrite Ec. apply mul_pow2_id; lia. }
    apply qz_inj in E'. cbn in HS. injection HS as <-. apply (sat_sym_range k b n c); auto.
Qed.

Lemma gfixed_mono x y k b i R S u v :
  k = 0 \/ k = 1 -> k <= b -> S = "SAT"%string \/ S = "SAT_SYM"%string -> (x <= y)%Qc ->
  gfixed_quantizer x k b i R S = Ok u -> gfixed_quantizer y k b i R S = Ok v -> (u <= v)%Qc.
Proof.
  intros Hk Hb HS L Hu Hv. destruct (Z.eq_dec b 0) as [->|Hb0].
  - apply gfixed_some in Hu as [? [? [_ [_ ->]]]]. apply gfixed_some in Hv as [? [? [_ [_ ->]]]].
    rewrite !gfixed_elem_z. qlra.
  - apply gfixed_some in Hu as [rnd [sat [HR [Hs ->]]]]. apply gfixed_some in Hv as [rnd' [sat' [HR' [Hs' ->]]]].
    rewrite HR in HR'; injection HR' as <-. rewrite Hs in Hs'; injection Hs' as <-.
    destruct (gfixed_code R S rnd sat k b i x HR Hs Hk Hb Hb0) as [n [c [N1 [S1 [_ ->]]]]].
    destruct (gfixed_code R S rnd sat k b i y HR Hs Hk Hb Hb0) as [m [d [N2 [S2 [_ ->]]]]].
    apply qmul_le_r; [pose proof (pow2_pos (i - b)); qlra|].
    assert (NM : n <= m).
    { eapply rounds_to_mono; [|exact N1|exact N2]. apply qmul_le_r; [pose proof (pow2_pos (b - i)); qlra|assumption]. }
    apply qz_le. destruct HS as [-> | ->]; cbn in Hs; injection Hs as <-.
    + rewrite SAT_qz in S1, S2 by assumption. apply qz_inj in S1, S2. lia.
    + rewrite SAT_SYM_qz in S1, S2 by assumption. apply qz_inj in S1, S2. lia.
Qed.
