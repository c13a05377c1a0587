(** Proofs for C98: casts through other types. *)
From Coq Require Import ZArith QArith Qcanon List Bool String Lia.
From Verif Require Import Base.Num Base.NumFacts Model.FixedPoint Model.Casts Spec.Fixed Spec.Casts Proofs.FixedPointP.
Import ListNotations.
Local Open Scope Z_scope.

Lemma qz1 : qz 1 = Q2Qc 1.
Proof. apply Qc_is_canon. reflexivity. Qed.

(** Nested floors. *)
Lemma floor_floor t d : 0 <= d -> qfloor (t * pow2 (- d))%Qc = qfloor t / 2 ^ d.
Proof.
  intros Hd. assert (P : 0 < 2 ^ d) by (apply Z.pow_pos_nonneg; lia). pose proof (qfloor_le t) as L. pose proof (qfloor_lt t) as U.
  pose proof (Z.div_mod (qfloor t) (2 ^ d) ltac:(lia)) as D. pose proof (Z.mod_pos_bound (qfloor t) (2 ^ d) P) as B.
  set (m := qfloor t / 2 ^ d) in *.
  assert (I : (pow2 d * pow2 (- d) = 1)%Qc) by (rewrite <- pow2_add, Z.add_opp_diag_r, pow2_0, qz1; reflexivity).
  pose proof (pow2_pos (- d)) as PP. rewrite (pow2_Z d) in I by lia.
  assert (L1 : (qz (2 ^ d * m) <= t)%Qc) by (apply Qcle_trans with (qz (qfloor t)); [apply qz_le; lia|exact L]).
  assert (U1 : (t < qz (2 ^ d * (m + 1)))%Qc). { apply Qclt_le_trans with (qz (qfloor t) + qz 1)%Qc; [exact U|]. rewrite <- qz_add. apply qz_le. lia. }
  rewrite qz_mul in L1, U1. rewrite qz_add in U1.
  apply qfloor_unique.
  - replace (qz m) with (qz (2 ^ d) * qz m * pow2 (- d))%Qc by (rewrite <- (Qcmult_1_r (qz m)) at 2; rewrite <- I; ring).
    apply Qcmult_le_compat_r; [exact L1|apply Qclt_le_weak; exact PP].
  - replace (qz m + qz 1)%Qc with (qz (2 ^ d) * (qz m + qz 1) * pow2 (- d))%Qc by (rewrite <- (Qcmult_1_r (qz m + qz 1)) at 2; rewrite <- I; ring).
    apply Qcmult_lt_compat_r; [exact PP|exact U1].
Qed.

(** The code stored by a cast. *)
Definition wrapz (k b v : Z) : Z := (v - lo k b) mod 2 ^ b + lo k b.
Definition satz (k b v : Z) : Z := Z.max (Z.min v (hi k b)) (lo k b).
Definition policy (S : string) (k b v : Z) : Z := if String.eqb S "SAT" then satz k b v else wrapz k b v.

Lemma gfixed_floor k b i S x : k = 0 \/ k = 1 -> k <= b -> 1 <= b -> In S ["WRAP"; "SAT"]%string ->
  gfixed k b i "TRN" S x = Ok (qz (policy S k b (qfloor (x * pow2 (b - i)))) * pow2 (i - b))%Qc.
Proof.
  intros Hk Hb H1 HS. unfold gfixed, gfixed_quantizer. cbn [RND_MAP String.eqb Ascii.eqb Bool.eqb].
  cbn in HS. destruct HS as [<-|[<-|[]]]; cbn [SAT_MAP String.eqb Ascii.eqb Bool.eqb]; unfold gfixed_elem, policy; cbv zeta; cbn [String.eqb Ascii.eqb Bool.eqb];
    (destruct (Z.eqb_spec b 0); [lia|]); unfold TRN; rewrite ?WRAP_qz, ?SAT_qz by assumption; rewrite div_pow2; replace (- (b - i)) with (i - b) by lia; f_equal; unfold wrapz, satz; change (qz 1) with 1%Qc; ring.
Qed.
Lemma gfixed_zero k i R S x : In R rounding_names -> In S overflow_names -> gfixed k 0 i R S x = Ok (qz 0).
Proof.
  intros HR HS. apply rnd_map_some in HR as [rnd HR]. apply sat_map_some in HS as [sat HS]. unfold gfixed, gfixed_quantizer. rewrite HR, HS. f_equal. unfold gfixed_elem. cbv zeta. rewrite Z.eqb_refl, qz_0. ring.
Qed.

Lemma wrapz_cong k b v w z : 0 <= b -> v = w + z * 2 ^ b -> wrapz k b v = wrapz k b w.
Proof.
  intros Hb ->. unfold wrapz. f_equal. replace (w + z * 2 ^ b - lo k b) with (w - lo k b + z * 2 ^ b) by ring. apply Z_mod_plus_full.
Qed.
Lemma wrapz_eq k b v : 0 <= b -> exists z, wrapz k b v = v + z * 2 ^ b.
Proof.
  intros Hb. exists (- ((v - lo k b) / 2 ^ b)). unfold wrapz. assert (P : 0 < 2 ^ b) by (apply Z.pow_pos_nonneg; lia). rewrite Z.mod_eq by lia. ring.
Qed.

(** The inner code seen from the outer type. *)
Lemma seen b i b' i' c : b - i <= b' - i' -> qfloor (qz c * pow2 (i' - b') * pow2 (b - i))%Qc = c / 2 ^ (b' - i' - (b - i)).
Proof.
  intros H. rewrite <- Qcmult_assoc, <- pow2_add. replace (i' - b' + (b - i)) with (- (b' - i' - (b - i))) by lia.
  rewrite floor_floor by lia. rewrite qfloor_qz. reflexivity.
Qed.
Lemma direct b i b' i' x : b - i <= b' - i' -> qfloor (x * pow2 (b - i))%Qc = qfloor (x * pow2 (b' - i'))%Qc / 2 ^ (b' - i' - (b - i)).
Proof.
  intros H. rewrite <- floor_floor by lia. f_equal. rewrite <- Qcmult_assoc, <- pow2_add. do 2 f_equal. lia.
Qed.

Lemma wrap_wrap k b i k' b' i' x : k = 0 \/ k = 1 -> k' = 0 \/ k' = 1 -> k <= b -> k' <= b' -> 0 <= b -> i <= i' -> b - i <= b' - i' ->
  after (gfixed k b i "TRN" "WRAP") (gfixed k' b' i' "TRN" "WRAP") x = gfixed k b i "TRN" "WRAP" x.
Proof.
  intros K K' Hb Hb' B0 I F. unfold after. destruct (Z.eq_dec b 0) as [->|N].
  { destruct (gfixed_ok x k' b' i' "TRN" "WRAP") as [y E]; [cbn; auto|cbn; auto|]. change (gfixed_quantizer x k' b' i' "TRN" "WRAP") with (gfixed k' b' i' "TRN" "WRAP" x) in E.
    rewrite E. cbn [rbind]. rewrite !gfixed_zero by (cbn; auto). reflexivity. }
  assert (HW : In "WRAP"%string ["WRAP"; "SAT"]%string) by (left; reflexivity).
  rewrite (gfixed_floor k' b' i') by (auto; lia). cbn [rbind]. rewrite !(gfixed_floor k b i) by (auto; lia). do 3 f_equal.
  rewrite (seen b i b' i') by exact F. rewrite (direct b i b' i' x) by exact F. unfold policy. cbn [String.eqb Ascii.eqb Bool.eqb].
  set (n := qfloor (x * pow2 (b' - i'))). set (d := b' - i' - (b - i)). destruct (wrapz_eq k' b' n) as [z E]; [lia|]. rewrite E.
  apply wrapz_cong with (z := z * 2 ^ (i' - i)); [exact B0|].
  replace (2 ^ b') with (2 ^ (i' - i) * 2 ^ b * 2 ^ d) by (rewrite <- !Z.pow_add_r by (unfold d; lia); f_equal; unfold d; lia).
  rewrite !Z.mul_assoc, Z_div_plus_full by (apply Z.pow_nonzero; unfold d; lia). reflexivity.
Qed.

Lemma sat_sat k b i k' b' i' x : k = 0 \/ k = 1 -> k' = 0 \/ k' = 1 -> k <= b -> k' <= b' -> 0 <= b -> k <= k' -> i - k <= i' - k' -> b - i <= b' - i' ->
  after (gfixed k b i "TRN" "SAT") (gfixed k' b' i' "TRN" "SAT") x = gfixed k b i "TRN" "SAT" x.
Proof.
  intros K K' Hb Hb' B0 KK I F. unfold after. destruct (Z.eq_dec b 0) as [->|N].
  { destruct (gfixed_ok x k' b' i' "TRN" "SAT") as [y E]; [cbn; auto|cbn; auto|]. change (gfixed_quantizer x k' b' i' "TRN" "SAT") with (gfixed k' b' i' "TRN" "SAT" x) in E.
    rewrite E. cbn [rbind]. rewrite !gfixed_zero by (cbn; auto). reflexivity. }
  assert (HW : In "SAT"%string ["WRAP"; "SAT"]%string) by (right; left; reflexivity).
  rewrite (gfixed_floor k' b' i') by (auto; lia). cbn [rbind]. rewrite !(gfixed_floor k b i) by (auto; lia). do 3 f_equal.
  rewrite (seen b i b' i') by exact F. rewrite (direct b i b' i' x) by exact F. unfold policy. cbn [String.eqb Ascii.eqb Bool.eqb].
  set (n := qfloor (x * pow2 (b' - i'))). set (d := b' - i' - (b - i)). unfold satz.
  assert (Pd : 0 < 2 ^ d) by (apply Z.pow_pos_nonneg; unfold d; lia).
  set (a := b' - k' - d). assert (Ha : b - k <= a) by (unfold a, d; lia).
  assert (E' : 2 ^ (b' - k') = 2 ^ a * 2 ^ d) by (rewrite <- Z.pow_add_r by (unfold a, d in *; lia); f_equal; unfold a; lia).
  assert (Pa : 2 ^ (b - k) <= 2 ^ a) by (apply Z.pow_le_mono_r; lia). assert (Pb : 0 < 2 ^ (b - k)) by (apply Z.pow_pos_nonneg; lia).
  unfold hi, lo. rewrite E'. set (D := 2 ^ d) in *. set (A := 2 ^ a) in *. set (B := 2 ^ (b - k)) in *.
  assert (Hi : (A * D - 1) / D = A - 1) by (symmetry; apply Z.div_unique with (r := D - 1); [left; lia|ring]).
  assert (Lo : (- (k' * (A * D))) / D = - (k' * A)) by (replace (- (k' * (A * D))) with (- (k' * A) * D) by ring; apply Z.div_mul; lia).
  assert (LH : - (k' * (A * D)) <= A * D - 1) by (destruct K' as [-> | ->]; nia).
  destruct (Z_le_gt_dec n (A * D - 1)) as [C1|C1].
  - rewrite (Z.min_l n) by exact C1. destruct (Z_le_gt_dec (- (k' * (A * D))) n) as [C2|C2].
    + rewrite (Z.max_l n) by exact C2. reflexivity.
    + rewrite (Z.max_r n) by lia. rewrite Lo. assert (Q : n / D <= - (k' * A)) by (rewrite <- Lo; apply Z.div_le_mono; lia).
      destruct K as [-> | ->], K' as [-> | ->]; nia.
  - rewrite (Z.min_r n) by lia. rewrite (Z.max_l (A * D - 1)) by exact LH. rewrite Hi.
    assert (Q : A - 1 <= n / D) by (rewrite <- Hi; apply Z.div_le_mono; lia).
    destruct K as [-> | ->]; lia.
Qed.

Lemma signed_pattern b i R x : 1 <= b -> In R rounding_names ->
  exists u, ufixed b i R "WRAP" x = Ok u /\ fixed b i R "WRAP" x = Ok (if qltb u (pow2 (i - 1)) then u else u - pow2 i)%Qc.
Proof.
  intros Hb HR. apply rnd_map_some in HR as [rnd HR]. unfold ufixed, fixed, gfixed, gfixed_quantizer. rewrite HR. cbn [SAT_MAP String.eqb Ascii.eqb Bool.eqb].
  unfold gfixed_elem. cbv zeta. destruct (Z.eqb_spec b 0); [lia|]. destruct (rnd_spec R rnd (x * pow2 (b - i)) HR) as (m & -> & _).
  rewrite !WRAP_qz by (auto; lia). rewrite !div_pow2. replace (- (b - i)) with (i - b) by lia.
  eexists. split; [reflexivity|]. f_equal. unfold lo. rewrite !Z.mul_0_l, !Z.mul_1_l. change (- 0) with 0. rewrite Z.sub_0_r, Z.add_0_r.
  assert (E : 2 ^ b = 2 * 2 ^ (b - 1)) by (rewrite <- Z.pow_succ_r by lia; f_equal; lia). assert (P : 0 < 2 ^ (b - 1)) by (apply Z.pow_pos_nonneg; lia).
  set (h := 2 ^ (b - 1)) in *. set (u := m mod 2 ^ b).
  assert (Bu : 0 <= u < 2 ^ b) by (apply Z.mod_pos_bound; lia).
  assert (Ep : pow2 (i - 1) = (qz h * pow2 (i - b))%Qc) by (unfold h; rewrite <- pow2_Z by lia; rewrite <- pow2_add; f_equal; lia).
  assert (Ei : pow2 i = (qz (2 * h) * pow2 (i - b))%Qc) by (rewrite <- E; rewrite <- pow2_Z by lia; rewrite <- pow2_add; f_equal; lia).
  rewrite Ep, Ei. pose proof (pow2_pos (i - b)) as PP. change (qz 1) with 1%Qc. rewrite !Qcmult_1_r.
  assert (S0 : (m - - h) mod 2 ^ b + - h = if Z.ltb u h then u else u - 2 * h).
  { pose proof (Z.div_mod m (2 ^ b) ltac:(lia)) as Dm. fold u in Dm. destruct (Z.ltb_spec u h).
    - assert (M : (m - - h) mod 2 ^ b = u + h) by (symmetry; apply Z.mod_unique with (q := m / 2 ^ b); [left; lia|lia]). lia.
    - assert (M : (m - - h) mod 2 ^ b = u - h) by (symmetry; apply Z.mod_unique with (q := m / 2 ^ b + 1); [left; lia|lia]). lia. }
  rewrite S0. destruct (Z.ltb_spec u h) as [L|L].
  - rewrite (proj2 (qltb_true _ _)); [reflexivity|]. apply Qcmult_lt_compat_r; [exact PP|apply qz_lt; exact L].
  - rewrite (proj2 (qltb_false _ _)); [rewrite qz_sub; ring|]. apply Qcmult_le_compat_r; [apply qz_le; exact L|apply Qclt_le_weak; exact PP].
Qed.

(** Values on the grid of the register. *)
Lemma cast_grid k b i x : k = 0 \/ k = 1 -> k <= b -> 1 <= b -> on_grid (b - i) x ->
  exists z, gfixed k b i "TRN" "WRAP" x = Ok (x + qz z * pow2 i)%Qc.
Proof.
  intros K Hb H1 [m ->]. rewrite gfixed_floor by (cbn; auto). unfold policy. cbn [String.eqb Ascii.eqb Bool.eqb].
  assert (E : (qz m * pow2 (- (b - i)) * pow2 (b - i) = qz m)%Qc) by (rewrite <- Qcmult_assoc, <- pow2_add; replace (- (b - i) + (b - i)) with 0 by lia; rewrite pow2_0, qz1; ring).
  rewrite E, qfloor_qz. destruct (wrapz_eq k b m) as [z ->]; [lia|]. exists z. f_equal. rewrite qz_add, qz_mul, <- pow2_Z by lia.
  replace (- (b - i)) with (i - b) by lia. replace (pow2 i) with (pow2 b * pow2 (i - b))%Qc by (rewrite <- pow2_add; f_equal; lia). ring.
Qed.
Lemma grid_add f x y : on_grid f x -> on_grid f y -> on_grid f (x + y)%Qc.
Proof. intros [m ->] [n ->]. exists (m + n). rewrite qz_add. ring. Qed.
Lemma grid_period b i z : 0 <= b -> on_grid (b - i) (qz z * pow2 i)%Qc.
Proof.
  intros Hb. exists (z * 2 ^ b). rewrite qz_mul, <- pow2_Z by lia. rewrite <- Qcmult_assoc, <- pow2_add. do 2 f_equal. lia.
Qed.
Lemma acc_total k b i vs : k = 0 \/ k = 1 -> k <= b -> 1 <= b -> Forall (on_grid (b - i)) vs -> forall r, on_grid (b - i) r ->
  exists z, accumulate (gfixed k b i "TRN" "WRAP") r vs = Ok (r + total vs + qz z * pow2 i)%Qc.
Proof.
  intros K Hb H1 H. induction H as [|v vs Hv H IH]; intros r Hr; cbn [accumulate total fold_right].
  - exists 0. f_equal. rewrite qz_0. ring.
  - destruct (cast_grid k b i (r + v)%Qc K Hb H1 (grid_add _ _ _ Hr Hv)) as [z1 ->]. cbn [rbind].
    destruct (IH (r + v + qz z1 * pow2 i)%Qc) as [z2 ->]; [apply grid_add; [apply grid_add; assumption|apply grid_period; lia]|].
    exists (z1 + z2). f_equal. rewrite qz_add. unfold total. ring.
Qed.
Lemma cast_period k b i x z : k = 0 \/ k = 1 -> k <= b -> 1 <= b -> gfixed k b i "TRN" "WRAP" (x + qz z * pow2 i)%Qc = gfixed k b i "TRN" "WRAP" x.
Proof.
  intros K Hb H1. rewrite !gfixed_floor by (cbn; auto). do 3 f_equal. unfold policy. cbn [String.eqb Ascii.eqb Bool.eqb].
  apply wrapz_cong with (z := z); [lia|].
  assert (E : ((x + qz z * pow2 i) * pow2 (b - i) = x * pow2 (b - i) + qz (z * 2 ^ b))%Qc).
  { rewrite qz_mul, <- pow2_Z by lia. replace (pow2 b) with (pow2 i * pow2 (b - i))%Qc by (rewrite <- pow2_add; f_equal; lia). ring. }
  rewrite E. pose proof (qfloor_le (x * pow2 (b - i))) as L. pose proof (qfloor_lt (x * pow2 (b - i))) as U. apply qfloor_unique; rewrite ?qz_add; generalize dependent (qz (z * 2 ^ b)); intros; qlra.
Qed.
Lemma accumulate_wrap k b i k' b' i' vs : k = 0 \/ k = 1 -> k' = 0 \/ k' = 1 -> k <= b -> k' <= b' -> 1 <= b -> 1 <= b' -> i <= i' ->
  Forall (on_grid (b' - i')) vs -> rbind (accumulate (gfixed k' b' i' "TRN" "WRAP") (qz 0) vs) (gfixed k b i "TRN" "WRAP") = gfixed k b i "TRN" "WRAP" (total vs).
Proof.
  intros K K' Hb Hb' B1 B1' I H. destruct (acc_total k' b' i' vs K' Hb' B1' H (qz 0)) as [z ->]; [exists 0; rewrite qz_0; ring|]. cbn [rbind].
  replace (qz 0 + total vs + qz z * pow2 i')%Qc with (total vs + qz (z * 2 ^ (i' - i)) * pow2 i)%Qc.
  - apply cast_period; assumption.
  - rewrite qz_mul, <- pow2_Z by lia. replace (pow2 i') with (pow2 (i' - i) * pow2 i)%Qc by (rewrite <- pow2_add; f_equal; lia). rewrite qz_0. ring.
Qed.

Lemma default_value k b i x : k = 0 \/ k = 1 -> k <= b -> 1 <= b ->
  exists y z, gfixed k b i "TRN" "WRAP" x = Ok y /\ representable k b i y /\ (y + qz z * pow2 i <= x)%Qc /\ (x < y + qz z * pow2 i + pow2 (i - b))%Qc.
Proof.
  intros K Hb H1. set (n := qfloor (x * pow2 (b - i))). destruct (wrapz_eq k b n) as [z E]; [lia|].
  assert (I : (pow2 (b - i) * pow2 (i - b) = 1)%Qc) by (rewrite <- pow2_add; replace (b - i + (i - b)) with 0 by lia; rewrite pow2_0, qz1; reflexivity).
  assert (Ei : pow2 i = (qz (2 ^ b) * pow2 (i - b))%Qc) by (rewrite <- pow2_Z by lia; rewrite <- pow2_add; f_equal; lia).
  pose proof (pow2_pos (i - b)) as PP. pose proof (qfloor_le (x * pow2 (b - i))) as L. pose proof (qfloor_lt (x * pow2 (b - i))) as U. fold n in L, U.
  assert (Ex : x = (x * pow2 (b - i) * pow2 (i - b))%Qc) by (rewrite <- Qcmult_assoc, I; ring).
  exists (qz (wrapz k b n) * pow2 (i - b))%Qc, (- z). split; [|split; [|split]].
  - rewrite gfixed_floor by (cbn; auto). reflexivity.
  - exists (wrapz k b n). split; [|reflexivity]. apply code_iff; [assumption|lia|]. unfold wrapz. pose proof (hi_lo k b K Hb).
    assert (P : 0 < 2 ^ b) by (apply Z.pow_pos_nonneg; lia). pose proof (Z.mod_pos_bound (n - lo k b) (2 ^ b) P). lia.
  - assert (Ey : (qz (wrapz k b n) * pow2 (i - b) + qz (- z) * pow2 i = qz n * pow2 (i - b))%Qc) by (rewrite E, Ei, qz_add, qz_mul, qz_opp; ring).
    rewrite Ey, Ex. apply Qcmult_le_compat_r; [exact L|apply Qclt_le_weak; exact PP].
  - assert (Ey : (qz (wrapz k b n) * pow2 (i - b) + qz (- z) * pow2 i + pow2 (i - b) = (qz n + qz 1) * pow2 (i - b))%Qc) by (rewrite E, Ei, qz_add, qz_mul, qz_opp, qz1; ring).
    rewrite Ey. rewrite Ex at 1. apply Qcmult_lt_compat_r; [exact PP|exact U].
Qed.
