(** Facts about the bit counts derived from recorded ranges and constants. *)
From Coq Require Import ZArith QArith Qcanon List Bool Lia.
From Verif Require Import Base.Num Base.NumFacts Base.Tensor Model.FixedPoint Model.Quantizer
  Spec.Fixed Spec.Quant Proofs.TensorP Proofs.FixedPointP Proofs.FixedPointLayerP Proofs.QuantizerP.
Import ListNotations.
Local Open Scope Z_scope.

(** ** Grid arithmetic *)
Lemma grid_pos_ge r x : on_grid r x -> (qz 0 < x)%Qc -> (pow2 (- r) <= x)%Qc.
Proof.
  intros [m ->] H. assert (0 < m).
  { apply qz_lt. apply (qmul_lt_r_inv _ _ (pow2 (- r))); [apply pow2_pos|]. change (qz 0) with 0%Qc in *.
    rewrite Qcmult_0_l. exact H. }
  replace (pow2 (- r)) with (qz 1 * pow2 (- r))%Qc at 1 by (change (qz 1) with 1%Qc; ring).
  apply qmul_le_r; [apply Qclt_le_weak, pow2_pos|]. apply qz_le. lia.
Qed.
Lemma grid_opp r x : on_grid r x -> on_grid r (- x)%Qc.
Proof. intros [m ->]. exists (- m). rewrite qz_opp. ring. Qed.
Lemma grid_add r x y : on_grid r x -> on_grid r y -> on_grid r (x + y)%Qc.
Proof. intros [m ->] [n ->]. exists (m + n). rewrite qz_add. ring. Qed.
Lemma grid_sub r x y : on_grid r x -> on_grid r y -> on_grid r (x - y)%Qc.
Proof. intros [m ->] [n ->]. exists (m - n). rewrite qz_sub. ring. Qed.
Lemma grid_0 r : on_grid r (qz 0).
Proof. exists 0. change (qz 0) with 0%Qc. ring. Qed.
Lemma grid_pow2 r e : - r <= e -> on_grid r (pow2 e).
Proof.
  intros H. exists (2 ^ (e + r)). rewrite <- pow2_Z by lia. rewrite <- pow2_add. f_equal. lia.
Qed.
Lemma grid_lt_le r x y : on_grid r x -> on_grid r y -> (x < y)%Qc -> (x + pow2 (- r) <= y)%Qc.
Proof.
  intros Hx Hy H. pose proof (grid_pos_ge r (y - x)%Qc (grid_sub _ _ _ Hy Hx)). assert (qz 0 < y - x)%Qc by qlra.
  specialize (H0 H1). qlra.
Qed.
Lemma grid_abs r x : on_grid r x -> on_grid r (qabs x).
Proof. intros H. destruct (qabs_spec x) as [[_ ->]|[_ ->]]; [assumption|apply grid_opp; assumption]. Qed.

Lemma qeqb_false x y : x <> y -> qeqb x y = false.
Proof. intros H. destruct (qeqb_spec x y); [contradiction|reflexivity]. Qed.
Lemma qeqb_refl x : qeqb x x = true.
Proof. destruct (qeqb_spec x x); [reflexivity|contradiction]. Qed.

(** ** Exact bits from a range *)
Lemma ceil_log2_le x e : (qz 0 <= x)%Qc -> (x <= pow2 e)%Qc ->
  match ceil_log2 x with ZNegInf => True | ZFin a => a <= e end.
Proof.
  intros H L. unfold ceil_log2. destruct (qeqb_spec x (qz 0)); [exact I|]. apply clog2_le_iff; [|assumption].
  destruct (qc_neq_lt x (qz 0)); try assumption. exfalso; qlra.
Qed.
Lemma ceil_log2_pos x : (qz 0 < x)%Qc -> ceil_log2 x = ZFin (clog2 x).
Proof. intros H. unfold ceil_log2. rewrite qeqb_false; [reflexivity|]. intros ->. qlra. Qed.
Lemma floor_log2_pos x : (qz 0 < x)%Qc -> floor_log2 x = ZFin (flog2 x).
Proof. intros H. unfold floor_log2. rewrite qeqb_false; [reflexivity|]. intros ->. qlra. Qed.
Lemma clog2_lower x e : (qz 0 < x)%Qc -> (pow2 e < x)%Qc -> e < clog2 x.
Proof.
  intros H L. destruct (Z_lt_le_dec e (clog2 x)) as [|G]; [assumption|]. apply clog2_le_iff in G; [|assumption]. exfalso; qlra.
Qed.
Lemma clog2_ge x e : (qz 0 < x)%Qc -> (pow2 e <= x)%Qc -> e <= clog2 x.
Proof.
  intros H L. destruct (Z_le_gt_dec e (clog2 x)) as [|G]; [assumption|].
  assert (C : clog2 x <= e - 1) by lia. apply clog2_le_iff in C; [|assumption].
  assert (pow2 (e - 1) < pow2 e)%Qc by (apply pow2_lt; lia). exfalso; qlra.
Qed.

(** The integer width computed from a non-zero range. *)
Lemma range_width r mn mx : on_grid r mn -> on_grid r mx -> (mn <= mx)%Qc -> mn <> qz 0 \/ mx <> qz 0 ->
  exists i, zext_max (ceil_log2 (qabs mn)) (ceil_log2 (qabs (mx + pow2 (- r)))) = ZFin i /\
    (- pow2 i <= mn)%Qc /\ (mx < pow2 i)%Qc /\ - r <= i /\ ((qz 0 <= mn)%Qc -> 1 - r <= i) /\
    forall i', (- pow2 i' <= mn)%Qc -> (mx < pow2 i')%Qc -> - r <= i' -> i <= i'.
Proof.
  intros Gmn Gmx Hle Hnz. pose proof (pow2_pos (- r)) as Pr.
  destruct (qltb_spec mn (qz 0)) as [Neg|Pos].
  - assert (Am : qabs mn = (- mn)%Qc) by (destruct (qabs_spec mn) as [[A _]|[_ B]]; [exfalso; qlra|assumption]).
    assert (Pm : (qz 0 < - mn)%Qc) by qlra. rewrite Am, (ceil_log2_pos _ Pm).
    destruct (clog2_spec _ Pm) as [C1 C2].
    assert (Lr : - r <= clog2 (- mn)).
    { apply clog2_ge; [assumption|]. apply grid_pos_ge; [apply grid_opp|]; assumption. }
    destruct (qltb_spec mx (qz 0)) as [Nx|Px].
    + assert (S : (mx + pow2 (- r) <= qz 0)%Qc) by (apply grid_lt_le; [assumption|apply grid_0|assumption]).
      set (e := ceil_log2 (qabs (mx + pow2 (- r)))).
      assert (E : match e with ZNegInf => True | ZFin a => a <= clog2 (- mn) end).
      { apply ceil_log2_le; [apply qabs_nonneg|]. destruct (qabs_spec (mx + pow2 (- r))) as [[A ->]|[A ->]]; qlra. }
      exists (clog2 (- mn)). split.
      { destruct e; cbn [zext_max]; [reflexivity|]. f_equal. lia. }
      split; [qlra|]. split; [pose proof (pow2_pos (clog2 (- mn))); qlra|]. split; [assumption|].
      split; [intros A; exfalso; qlra|]. intros i' A B _. apply clog2_le_iff; [assumption|]. qlra.
    + assert (Pp : (qz 0 < mx + pow2 (- r))%Qc) by qlra.
      assert (Ap : qabs (mx + pow2 (- r)) = (mx + pow2 (- r))%Qc)
        by (destruct (qabs_spec (mx + pow2 (- r))) as [[_ B]|[A _]]; [assumption|exfalso; qlra]).
      rewrite Ap, (ceil_log2_pos _ Pp). destruct (clog2_spec _ Pp) as [D1 D2]. cbn [zext_max].
      exists (Z.max (clog2 (- mn)) (clog2 (mx + pow2 (- r)))). split; [reflexivity|].
      assert (M1 : (pow2 (clog2 (- mn)) <= pow2 (Z.max (clog2 (- mn)) (clog2 (mx + pow2 (- r)))))%Qc) by (apply pow2_le; lia).
      assert (M2 : (pow2 (clog2 (mx + pow2 (- r))) <= pow2 (Z.max (clog2 (- mn)) (clog2 (mx + pow2 (- r)))))%Qc) by (apply pow2_le; lia).
      split; [qlra|]. split; [qlra|]. split; [lia|]. split; [intros A; exfalso; qlra|].
      intros i' A B L. apply Z.max_lub; apply clog2_le_iff; try assumption; [qlra|].
      apply grid_lt_le; [assumption|apply grid_pow2; lia|assumption].
  - assert (Px : (qz 0 < mx)%Qc).
    { destruct (qleb_spec mx (qz 0)) as [L|L]; [|assumption]. exfalso.
      assert (mx = qz 0) by (apply Qcle_antisym; qlra). assert (mn = qz 0) by (apply Qcle_antisym; qlra). destruct Hnz; contradiction. }
    assert (Am : qabs mn = mn) by (destruct (qabs_spec mn) as [[_ B]|[A _]]; [assumption|exfalso; qlra]).
    assert (Pp : (qz 0 < mx + pow2 (- r))%Qc) by qlra.
    assert (Ap : qabs (mx + pow2 (- r)) = (mx + pow2 (- r))%Qc)
      by (destruct (qabs_spec (mx + pow2 (- r))) as [[_ B]|[A _]]; [assumption|exfalso; qlra]).
    rewrite Am, Ap, (ceil_log2_pos _ Pp). destruct (clog2_spec _ Pp) as [D1 D2].
    set (e := ceil_log2 mn).
    assert (E : match e with ZNegInf => True | ZFin a => a <= clog2 (mx + pow2 (- r)) end).
    { apply ceil_log2_le; [assumption|]. qlra. }
    exists (clog2 (mx + pow2 (- r))). split.
    { destruct e; cbn [zext_max]; [reflexivity|]. f_equal. lia. }
    assert (G1 : 1 - r <= clog2 (mx + pow2 (- r))).
    { apply clog2_ge; [assumption|]. replace (1 - r) with (- r + 1) by lia. rewrite pow2_succ.
      pose proof (grid_pos_ge _ _ Gmx Px). change (qz 2) with (qz (1 + 1)). rewrite qz_add. change (qz 1) with 1%Qc.
      replace ((1 + 1) * pow2 (- r))%Qc with (pow2 (- r) + pow2 (- r))%Qc by ring. qlra. }
    split; [qlra|]. split; [qlra|]. split; [lia|]. split; [intros _; assumption|].
    intros i' A B L. apply clog2_le_iff; [assumption|]. apply grid_lt_le; [assumption|apply grid_pow2; lia|assumption].
Qed.

Lemma i8_small z : -128 <= z <= 127 -> i8 z = z.
Proof. apply i8_id. Qed.

Lemma bits_exact_zero fbw r : r = qround_even fbw -> -32 <= r <= 94 ->
  bits_exact_elem false (qz 0) (qz 0) fbw = (0, 0, 0).
Proof.
  intros Hr Hb. unfold bits_exact_elem. cbv zeta. rewrite <- Hr.
  destruct (qltb_spec (qz 0) (qz 0)) as [A|_]; [exfalso; qlra|].
  replace (qz 0 + pow2 (- r))%Qc with (pow2 (- r)) by (change (qz 0) with 0%Qc; ring).
  assert (Ap : qabs (pow2 (- r)) = pow2 (- r))
    by (destruct (qabs_spec (pow2 (- r))) as [[_ B]|[A _]]; [assumption|pose proof (pow2_pos (- r)); exfalso; qlra]).
  rewrite Ap, (ceil_log2_pos _ (pow2_pos _)), clog2_pow2.
  change (ceil_log2 (qabs (qz 0))) with ZNegInf. cbn [zext_max]; unfold zext_clip.
  replace (Z.min (Z.max (- r) (- r - 0)) 32) with (- r) by lia.
  rewrite (i8_small 0), (i8_small r), (i8_small (- r)), (i8_small (0 + - r + r)) by lia. replace (0 + - r + r =? 0) with true; [|symmetry; apply Z.eqb_eq; lia].
  cbv iota; rewrite ?Z.mul_0_r; reflexivity.
Qed.

Lemma bits_exact_nonzero fbw r mn mx : r = qround_even fbw -> -32 <= r <= 94 ->
  on_grid r mn -> on_grid r mx -> (mn <= mx)%Qc -> mn <> qz 0 \/ mx <> qz 0 ->
  (- pow2 32 <= mn)%Qc -> (mx < pow2 32)%Qc ->
  exists i, bits_exact_elem false mn mx fbw = (if qltb mn (qz 0) then 1 else 0, i, r) /\
    (- pow2 i <= mn)%Qc /\ (mx < pow2 i)%Qc /\ - r <= i <= 32 /\ ((qz 0 <= mn)%Qc -> 1 - r <= i) /\
    zext_max (ceil_log2 (qabs mn)) (ceil_log2 (qabs (mx + pow2 (- r)))) = ZFin i /\
    forall i', (- pow2 i' <= mn)%Qc -> (mx < pow2 i')%Qc -> - r <= i' -> i <= i'.
Proof.
  intros Hr Hb Gmn Gmx Hle Hnz B1 B2. destruct (range_width r mn mx Gmn Gmx Hle Hnz) as [i [E [W1 [W2 [W3 [W4 W5]]]]]].
  assert (I32 : i <= 32) by (apply W5; [assumption|assumption|lia]).
  exists i. split.
  - unfold bits_exact_elem. cbv zeta. rewrite <- Hr, E. unfold zext_clip.
    set (k := if qltb mn (qz 0) then 1 else 0). assert (Hk : 0 <= k <= 1) by (unfold k; destruct (qltb _ _); lia).
    replace (Z.min (Z.max i (- r - k)) 32) with i by lia.
    rewrite (i8_small k), (i8_small i), (i8_small r), (i8_small (k + i + r)) by lia.
    assert (Hs : k + i + r <> 0).
    { unfold k. destruct (qltb_spec mn (qz 0)) as [A|A]; [lia|]. specialize (W4 A). lia. }
    apply Z.eqb_neq in Hs. rewrite Hs. cbv iota; rewrite ?Z.mul_1_r; reflexivity.
  - split; [assumption|]. split; [assumption|]. split; [lia|]. split; [assumption|]. split; assumption.
Qed.

(** A format that holds every grid point of a range holds its end points, and
    its integer width is at least -r for a non-zero range. *)
Lemma fits_width k i r v : fits k i r v -> v <> qz 0 -> - r - k < i \/ k <> 0.
Proof.
  intros [G [L U]] N. destruct (Z.eq_dec k 0) as [->|]; [left|right; assumption].
  assert (P : (qz 0 < v)%Qc).
  { destruct (qc_neq_lt v (qz 0) N) as [H|H]; [|assumption]. change (qz 0) with 0%Qc in L. rewrite Qcmult_0_l in L.
    exfalso. change 0%Qc with (qz 0) in L. qlra. }
  pose proof (grid_pos_ge _ _ G P). assert (pow2 (- r) < pow2 i)%Qc by qlra. apply pow2_lt_inv in H0. lia.
Qed.

(** ** pos_only *)
Lemma bits_pos_nonpos fbw r mn mx : r = qround_even fbw -> -32 <= r <= 94 -> (mx <= qz 0)%Qc ->
  bits_exact_elem true mn mx fbw = (0, 0, 0).
Proof.
  intros Hr Hb H. unfold bits_exact_elem. cbv zeta. rewrite <- Hr.
  assert (E : qmax mx (qz 0) = qz 0) by (destruct (qmax_spec mx (qz 0)) as [[_ A]|[A _]]; [assumption|exfalso; qlra]).
  rewrite E. change (floor_log2 (qz 0)) with ZNegInf. cbn [zext_add]; unfold zext_clip.
  replace (Z.min (- r - 0) 32) with (- r) by lia.
  rewrite (i8_small 0), (i8_small r), (i8_small (- r)), (i8_small (0 + - r + r)) by lia.
  replace (0 + - r + r =? 0) with true by (symmetry; apply Z.eqb_eq; lia). cbv iota; rewrite ?Z.mul_0_r; reflexivity.
Qed.
Lemma bits_pos fbw r mn mx : r = qround_even fbw -> -32 <= r <= 94 -> on_grid r mx -> (qz 0 < mx)%Qc ->
  (mx < pow2 32)%Qc ->
  bits_exact_elem true mn mx fbw = (0, flog2 mx + 1, r) /\ - r <= flog2 mx < 32.
Proof.
  intros Hr Hb G H U. unfold bits_exact_elem. cbv zeta. rewrite <- Hr.
  assert (E : qmax mx (qz 0) = mx) by (destruct (qmax_spec mx (qz 0)) as [[A _]|[_ A]]; [exfalso; qlra|assumption]).
  rewrite E, floor_log2_pos by assumption. cbn [zext_add]; unfold zext_clip.
  pose proof (grid_pos_ge _ _ G H) as L. destruct (flog2_spec _ H) as [F1 F2].
  assert (L1 : - r < flog2 mx + 1).
  { apply pow2_lt_inv. qlra. }
  assert (L2 : flog2 mx < 32) by (apply flog2_lt_iff; assumption).
  replace (Z.min (Z.max (flog2 mx + 1) (- r - 0)) 32) with (flog2 mx + 1) by lia.
  rewrite (i8_small 0), (i8_small (flog2 mx + 1)), (i8_small r), (i8_small (0 + (flog2 mx + 1) + r)) by lia. split; [|lia].
  replace (0 + (flog2 mx + 1) + r =? 0) with false by (symmetry; apply Z.eqb_neq; lia). cbv iota; rewrite ?Z.mul_1_r; reflexivity.
Qed.

(** ** Bits of constants *)
Lemma val2 : forall A, 0 < A -> exists v o, 0 <= v /\ A = (2 * o + 1) * 2 ^ v.
Proof.
  intros A. induction A as [x IH] using (well_founded_induction (Z.lt_wf 0)). intros Hx.
  destruct (Z.Even_or_Odd x) as [[m E]|[m E]].
  - destruct (IH m ltac:(lia) ltac:(lia)) as [v [o [Hv Ho]]]. exists (v + 1), o. split; [lia|].
    rewrite Z.pow_add_r by lia. change (2 ^ 1) with 2. lia.
  - exists 0, m. split; [lia|]. change (2 ^ 0) with 1. lia.
Qed.
Lemma div_val2 v o j : 0 <= v -> 0 <= j -> (((2 * o + 1) * 2 ^ v) mod 2 ^ j = 0 <-> j <= v).
Proof.
  intros Hv Hj. assert (P : 0 < 2 ^ j) by (apply Z.pow_pos_nonneg; lia). split.
  - intros H. apply Z.mod_divide in H; [|lia]. destruct H as [c Hc].
    destruct (Z_le_gt_dec j v) as [|G]; [assumption|exfalso].
    replace j with (v + 1 + (j - v - 1)) in Hc by lia. rewrite !Z.pow_add_r in Hc by lia.
    change (2 ^ 1) with 2 in Hc. assert (Pv : 0 < 2 ^ v) by (apply Z.pow_pos_nonneg; lia).
    assert (E : 2 * o + 1 = 2 * (c * 2 ^ (j - v - 1))).
    { apply (Z.mul_reg_r _ _ (2 ^ v)); [lia|]. rewrite Hc. ring. }
    lia.
  - intros L. apply Z.mod_divide; [lia|]. exists ((2 * o + 1) * 2 ^ (v - j)).
    rewrite <- Z.mul_assoc, <- Z.pow_add_r by lia. f_equal. f_equal. lia.
Qed.
Lemma filter_map_length {A B} (f : B -> bool) (g : A -> B) l :
  length (filter f (map g l)) = length (filter (fun x => f (g x)) l).
Proof. induction l as [|a l IH]; cbn; [reflexivity|]. destruct (f (g a)); cbn; rewrite IH; reflexivity. Qed.
Lemma count_seq (P : nat -> bool) v n : (forall j, (1 <= j)%nat -> P j = true <-> Z.of_nat j <= v) -> 0 <= v ->
  Z.of_nat (length (filter P (seq 1 n))) = Z.min v (Z.of_nat n).
Proof.
  intros H Hv. induction n as [|n IH]; [cbn; lia|]. rewrite seq_S, filter_app, app_length, Nat2Z.inj_add, IH.
  cbn [filter Nat.add]. specialize (H (S n) ltac:(lia)).
  destruct (P (S n)) eqn:E; cbn [length].
  - assert (Z.of_nat (S n) <= v) by (apply H; reflexivity). lia.
  - assert (~ Z.of_nat (S n) <= v) by (intros C; apply H in C; discriminate). lia.
Qed.
Lemma zmax0_aux l : forall a, a <= fold_left Z.max l a /\ (forall x, In x l -> x <= fold_left Z.max l a) /\
  forall b, a <= b -> (forall x, In x l -> x <= b) -> fold_left Z.max l a <= b.
Proof.
  induction l as [|y l IH]; intros a; cbn [fold_left].
  - split; [lia|]. split; [intros x []|]. intros; assumption.
  - destruct (IH (Z.max a y)) as [A [B C]]. split; [lia|]. split.
    + intros x [->|Hx]; [lia|apply B; assumption].
    + intros b Hb Hl. apply C; [|intros x Hx; apply Hl; right; assumption].
      specialize (Hl y (or_introl eq_refl)). lia.
Qed.

(** The integer |w| * 2^32. *)
Lemma grid32 w : on_grid 32 w -> exists A, qabs (w * pow2 32)%Qc = qz A /\ 0 <= A /\ qabs w = (qz A * pow2 (-32))%Qc.
Proof.
  intros [m ->]. exists (Z.abs m). change (- (32)) with (-32). change 32 with (- (-32)) at 1. rewrite mul_pow2_cancel.
  split; [apply qabs_qz|]. split; [lia|]. rewrite <- (qabs_qz m). pose proof (pow2_pos (-32)) as P.
  assert (H : forall x, (qz 0 <= x -> qz 0 <= x * pow2 (-32))%Qc).
  { intros x Hx. replace (qz 0) with (qz 0 * pow2 (-32))%Qc by (change (qz 0) with 0%Qc; ring).
    apply qmul_le_r; [qlra|assumption]. }
  assert (H' : forall x, (x < qz 0 -> x * pow2 (-32) < qz 0)%Qc).
  { intros x Hx. replace (qz 0) with (qz 0 * pow2 (-32))%Qc at 1 by (change (qz 0) with 0%Qc; ring).
    apply qmul_lt_r; assumption. }
  destruct (qabs_spec (qz m)) as [[A ->]|[A ->]]; destruct (qabs_spec (qz m * pow2 (-32))) as [[B ->]|[B ->]].
  - reflexivity.
  - specialize (H _ A). exfalso. qlra.
  - specialize (H' _ A). exfalso. qlra.
  - ring.
Qed.

Lemma flog2_qz_bound A e : 0 < A -> 0 <= e -> A < 2 ^ e -> flog2 (qz A) < e.
Proof.
  intros HA He H. apply flog2_lt_iff; [apply qz_lt; assumption|]. rewrite pow2_Z by assumption. apply qz_lt; assumption.
Qed.

Definition arr_ok (fl : Qc -> Qc) (arr : list Qc) : Prop :=
  forall w, In w arr -> on_grid 32 w /\ (qabs w < pow2 64)%Qc /\ qabs w <> pow2 (-32) /\
    (qabs (w * pow2 32) <= fl (qabs (w * pow2 32) + qz 1))%Qc /\
    (fl (qabs (w * pow2 32) + qz 1) <= qz 2 * (qabs (w * pow2 32) + qz 1))%Qc.

Lemma arr_size fl arr w A : arr_ok fl arr -> In w arr -> qabs (w * pow2 32)%Qc = qz A ->
  0 <= A /\ A < 2 ^ 96.
Proof.
  intros H Hw E. destruct (H w Hw) as [G [U _]]. destruct (grid32 w G) as [A' [E' [P' W']]].
  assert (A' = A) by (apply qz_inj; congruence). subst A'. split; [assumption|].
  apply qz_lt. rewrite <- pow2_Z by lia. apply (qmul_lt_r_inv _ _ (pow2 (-32))); [apply pow2_pos|].
  rewrite <- W', <- pow2_add. exact U.
Qed.

Lemma arr_n fl arr : arr_ok fl arr ->
  let n := zmax0 (map (fun v => clog2 (fl (v + qz 1)%Qc)) (map (fun w => qabs (w * pow2 32)%Qc) arr)) in
  0 <= n <= 97 /\ (forall w A, In w arr -> qabs (w * pow2 32)%Qc = qz A -> clog2 (fl (qz A + qz 1)%Qc) <= n).
Proof.
  intros H n. unfold n, zmax0. clear n. destruct (zmax0_aux
    (map (fun v => clog2 (fl (v + qz 1)%Qc)) (map (fun w => qabs (w * pow2 32)%Qc) arr)) 0) as [A [B C]].
  split; [split; [assumption|]|].
  - apply C; [lia|]. intros x Hx. rewrite map_map in Hx. apply in_map_iff in Hx. destruct Hx as [w [<- Hw]].
    destruct (H w Hw) as [G [U [_ [L1 L2]]]]. destruct (grid32 w G) as [a [E [P W]]]. rewrite E in *.
    destruct (arr_size fl arr w a H Hw E) as [_ S].
    assert (Z : qz 2 = (qz 1 + qz 1)%Qc) by (rewrite <- qz_add; reflexivity).
    assert (P1 : (qz 1 <= qz a + qz 1)%Qc) by (rewrite <- qz_add; apply qz_le; lia).
    destruct (qleb_spec (fl (qz a + qz 1)%Qc) (qz 0)) as [N|N].
    + assert (a = 0) by (apply Z.le_antisymm; [apply qz_le; qlra|assumption]). subst a.
      assert (F : fl (qz 0 + qz 1)%Qc = qz 0) by (apply Qcle_antisym; qlra). rewrite F.
      vm_compute. discriminate.
    + apply clog2_le_iff; [assumption|]. eapply Qcle_trans; [exact L2|].
      rewrite <- qz_add, <- qz_mul, pow2_Z by lia. apply qz_le. change 97 with (1 + 96).
      rewrite Z.pow_add_r by lia. change (2 ^ 1) with 2. lia.
  - intros w a Hw E. apply B. rewrite map_map. apply in_map_iff. exists w. rewrite E. auto.
Qed.

(** The element computation of get_arr_bits, n bits examined. *)
Definition arr_elem (n : Z) (w : Qc) : Z * Z * Z :=
  let k := if qltb w (qz 0) then 1 else 0 in
  let v := qabs (w * pow2 32)%Qc in
  let divisor := map (fun j => pow2 (Z.of_nat j)) (seq 1 (Z.to_nat n - 1)) in
  let low_pos := Z.of_nat (List.length (filter (fun d => qeqb (floormod v d) (qz 0)) divisor))
                 + (if qeqb v (qz 1) then 1 else 0) in
  let high_pos := if qeqb v (qz 0) then low_pos else flog2 v + 1 in
  let high_pos := i8 high_pos in
  let fb := 32 - low_pos in
  let int_bits := high_pos - low_pos - fb in
  let zero_mask := Z.eqb (int_bits + fb) 0 in
  let int_bits := if zero_mask then 0 else int_bits in
  let fb := if zero_mask then 0 else fb in
  (k, i8 int_bits, i8 fb).
Lemma get_arr_bits_elem fl arr : get_arr_bits fl arr =
  map (arr_elem (zmax0 (map (fun v => clog2 (fl (v + qz 1)%Qc)) (map (fun w => qabs (w * pow2 32)%Qc) arr)))) arr.
Proof.
  unfold get_arr_bits. cbv zeta. generalize (zmax0 (map (fun v => clog2 (fl (v + qz 1)%Qc))
    (map (fun w => qabs (w * pow2 32)%Qc) arr))). intros n.
  induction arr as [|w arr IH]; [reflexivity|]. cbn [map combine]. rewrite IH. reflexivity.
Qed.

Lemma filter_true {A} (f : A -> bool) l : (forall x, In x l -> f x = true) -> filter f l = l.
Proof.
  induction l as [|a l IH]; intros H; cbn; [reflexivity|]. rewrite (H a (or_introl eq_refl)). f_equal.
  apply IH. intros; apply H; right; assumption.
Qed.
Lemma arr_elem_zero n : 0 <= n <= 97 -> arr_elem n (qz 0) = (0, 0, 0).
Proof.
  intros Hn. unfold arr_elem. cbv zeta. replace (qz 0 * pow2 32)%Qc with (qz 0) by (change (qz 0) with 0%Qc; ring).
  change (qabs (qz 0)) with (qz 0). change (qltb (qz 0) (qz 0)) with false.
  change (qeqb (qz 0) (qz 1)) with false. change (qeqb (qz 0) (qz 0)) with true. cbv iota.
  rewrite filter_true, map_length, seq_length.
  - set (m := Z.of_nat (Z.to_nat n - 1)). assert (0 <= m <= 97) by lia.
    rewrite (i8_small (m + 0)) by lia. replace (m + 0 - (m + 0) - (32 - (m + 0)) + (32 - (m + 0))) with 0 by lia.
    reflexivity.
  - intros x Hx. apply in_map_iff in Hx. destruct Hx as [j [<- Hj]]. apply qeqb_true.
    rewrite pow2_Z by lia. rewrite floormod_qz by (apply Z.pow_pos_nonneg; lia). rewrite Z.mod_0_l; [reflexivity|].
    apply Z.pow_nonzero; lia.
Qed.

Lemma grid_val2 w v o : qabs w = (qz ((2 * o + 1) * 2 ^ v) * pow2 (-32))%Qc -> 0 <= v ->
  forall f, on_grid f w <-> 32 - v <= f.
Proof.
  intros E Hv f. assert (W : on_grid f w <-> on_grid f (qabs w)).
  { destruct (qabs_spec w) as [[_ ->]|[_ ->]]; [tauto|]. split; intros H; apply grid_opp in H; [assumption|].
    replace w with (- - w)%Qc by ring. assumption. }
  rewrite W, E. clear W. split.
  - intros [m Hm]. destruct (Z_le_gt_dec (32 - v) f) as [|G]; [assumption|exfalso].
    assert (H : (qz ((2 * o + 1) * 2 ^ v) = qz m * pow2 (32 - f))%Qc).
    { apply (f_equal (fun x => x * pow2 32)%Qc) in Hm. change (-32) with (- (32)) in Hm. rewrite mul_pow2_cancel' in Hm. rewrite Hm.
      rewrite <- Qcmult_assoc, <- pow2_add. f_equal. f_equal. lia. }
    rewrite pow2_Z in H by lia. rewrite <- qz_mul in H. apply qz_inj in H.
    assert (D : ((2 * o + 1) * 2 ^ v) mod 2 ^ (32 - f) = 0).
    { rewrite H. apply Z.mod_mul. apply Z.pow_nonzero; lia. }
    apply div_val2 in D; lia.
  - intros H. exists ((2 * o + 1) * 2 ^ (v - (32 - f))). rewrite !qz_mul, <- !pow2_Z by lia.
    rewrite <- !Qcmult_assoc, <- !pow2_add. f_equal. f_equal. lia.
Qed.

Lemma arr_elem_nonzero n w A v o : 0 <= n <= 97 -> on_grid 32 w -> qabs (w * pow2 32)%Qc = qz A ->
  A <> 0 -> A <> 1 -> A < 2 ^ 96 -> A = (2 * o + 1) * 2 ^ v -> 0 <= v ->
  v <= flog2 (qz A) < 96 /\
  arr_elem n w = ((if qltb w (qz 0) then 1 else 0), flog2 (qz A) + 1 - 32, 32 - Z.min v (Z.max (n - 1) 0)).
Proof.
  intros Hn G E A0 A1 AU EA Hv.
  assert (AP : 0 < A). { destruct (grid32 w G) as [A' [E' [P' _]]]. assert (A' = A) by (apply qz_inj; congruence). lia. }
  assert (F : flog2 (qz A) < 96) by (apply flog2_qz_bound; lia).
  assert (Pv : 0 < 2 ^ v) by (apply Z.pow_pos_nonneg; lia).
  assert (F2 : v <= flog2 (qz A)).
  { destruct (flog2_spec (qz A)) as [_ U]; [apply qz_lt; assumption|]. assert (L : (pow2 v < pow2 (flog2 (qz A) + 1))%Qc).
    { eapply Qcle_lt_trans; [|exact U]. rewrite (pow2_Z v) by assumption. apply qz_le. rewrite EA.
      assert (0 < 2 * o + 1) by nia. nia. }
    apply pow2_lt_inv in L. lia. }
  split; [lia|]. unfold arr_elem. cbv zeta. rewrite E.
  rewrite (qeqb_false (qz A) (qz 0)) by (intros C; apply qz_inj in C; lia).
  rewrite (qeqb_false (qz A) (qz 1)) by (intros C; apply qz_inj in C; lia).
  rewrite filter_map_length. rewrite (count_seq _ v); [|intros j Hj|assumption].
  - replace (Z.of_nat (Z.to_nat n - 1)) with (Z.max (n - 1) 0) by lia.
    set (m := Z.max (n - 1) 0). assert (0 <= m <= 96) by lia.
    rewrite (i8_small (flog2 (qz A) + 1)) by lia.
    replace (flog2 (qz A) + 1 - (Z.min v m + 0) - (32 - (Z.min v m + 0)) + (32 - (Z.min v m + 0)) =? 0) with false
      by (symmetry; apply Z.eqb_neq; lia).
    cbv iota. rewrite (i8_small (32 - (Z.min v m + 0))) by lia.
    rewrite i8_small by lia. f_equal; [f_equal|]; lia.
  - rewrite qeqb_true. rewrite (pow2_Z (Z.of_nat j)) by lia. rewrite floormod_qz by (apply Z.pow_pos_nonneg; lia).
    rewrite EA. rewrite <- (div_val2 v o (Z.of_nat j)) by lia. split; [apply qz_inj|intros ->; reflexivity].
Qed.

(** get_arr_bits on one weight of a legal array. *)
Lemma arr_bits_spec fl arr n w t : arr_ok fl arr -> nth_error arr n = Some w ->
  nth_error (get_arr_bits fl arr) n = Some t ->
  (w = qz 0 -> t = (0, 0, 0)) /\
    (w <> qz 0 -> exists i f, t = (if qltb w (qz 0) then 1 else 0, i, f) /\ on_grid f w /\ (qabs w < pow2 i)%Qc /\
    (forall i', (qabs w < pow2 i')%Qc -> i <= i') /\ (forall f', on_grid f' w -> f - 1 <= f') /\
    ((forall a, fl a = a) -> forall f', on_grid f' w -> f <= f') /\
    1 <= i + f <= 96 /\ -64 <= f <= 32).
Proof.
  intros H Hw Ht. rewrite get_arr_bits_elem in Ht. pose proof (arr_n fl arr H) as N. cbv zeta in N.
  set (m := zmax0 _) in *. clearbody m. destruct N as [N1 N2].
  rewrite nth_error_map, Hw in Ht. cbn [option_map] in Ht. injection Ht as <-.
  apply nth_error_In in Hw. split; [intros ->; apply arr_elem_zero; assumption|]. intros NZ.
  destruct (H w Hw) as [G [U [Ne [L1 L2]]]]. destruct (grid32 w G) as [A [E [P W]]].
  destruct (arr_size fl arr w A H Hw E) as [_ AU].
  assert (AN : A <> 0).
  { intros ->. apply NZ. change (qz 0) with 0%Qc in W. rewrite Qcmult_0_l in W. change 0%Qc with (qz 0) in W.
    destruct (qabs_spec w) as [[B C]|[B C]]; rewrite C in W; qlra. }
  assert (A1 : A <> 1).
  { intros ->. apply Ne. rewrite W. change (qz 1) with 1%Qc. ring. }
  destruct (val2 A ltac:(lia)) as [v [o [Hv Ho]]].
  destruct (arr_elem_nonzero m w A v o N1 G E AN A1 AU Ho Hv) as [F ->].
  rewrite Ho in W. pose proof (grid_val2 w v o W Hv) as GR. rewrite <- Ho in W.
  assert (AP : (qz 0 < qz A)%Qc) by (apply qz_lt; lia).
  destruct (flog2_spec (qz A) AP) as [F1 F2].
  assert (IW : forall e, (qabs w < pow2 e)%Qc <-> flog2 (qz A) - 32 < e).
  { intros e. assert (X0 : flog2 (qz A) - 32 < e <-> flog2 (qz A) < e + 32) by lia. rewrite X0.
    rewrite flog2_lt_iff by assumption. rewrite W. rewrite pow2_add. split.
    - intros X. apply (qmul_lt_r _ _ (pow2 32)) in X; [|apply pow2_pos]. change (-32) with (- (32)) in X.
      rewrite mul_pow2_cancel' in X. assumption.
    - intros X. apply (qmul_lt_r_inv _ _ (pow2 32)); [apply pow2_pos|]. change (-32) with (- (32)).
      rewrite mul_pow2_cancel'. assumption. }
  exists (flog2 (qz A) + 1 - 32), (32 - Z.min v (Z.max (m - 1) 0)).
  specialize (N2 w A Hw E). rewrite E in L1, L2.
  assert (V1 : v <= m).
  { destruct (Z.eq_dec v 0); [lia|]. eapply Z.le_trans; [|exact N2]. apply clog2_ge; [qlra|].
    eapply Qcle_trans; [|exact L1]. rewrite pow2_Z by assumption. apply qz_le. rewrite Ho.
    assert (0 < 2 ^ v) by (apply Z.pow_pos_nonneg; lia). assert (0 < 2 * o + 1) by nia. nia. }
  split; [reflexivity|]. split; [apply GR; lia|]. split; [apply IW; lia|].
  split; [intros i' X; apply IW in X; lia|]. split; [intros f' X; apply GR in X; lia|]. split.
  - intros Fid f' X. apply GR in X. rewrite Fid in N2.
    assert (v < m).
    { eapply Z.lt_le_trans; [|exact N2]. apply clog2_lower; [qlra|]. rewrite pow2_Z by assumption.
      rewrite <- qz_add. apply qz_lt. rewrite Ho.
      assert (0 < 2 ^ v) by (apply Z.pow_pos_nonneg; lia). assert (0 < 2 * o + 1) by nia. nia. }
    lia.
  - lia.
Qed.

(** ** Approximate bits *)
Lemma act_bw_zero relu fbw r : r = qround_even fbw -> -32 <= r <= 94 ->
  act_bw_elem relu (qz 0) (qz 0) fbw = 0 /\ act_bw_exact_elem relu (qz 0) (qz 0) fbw = 0.
Proof.
  intros Hr Hb. split.
  - unfold act_bw_elem, bits_approx_elem. cbv zeta. destruct relu; reflexivity.
  - unfold act_bw_exact_elem. destruct relu.
    + rewrite (bits_pos_nonpos fbw r) by (try assumption; apply Qcle_refl). reflexivity.
    + rewrite (bits_exact_zero fbw r) by assumption. reflexivity.
Qed.
Lemma act_bw_relu fbw r mn mx : r = qround_even fbw -> -32 <= r <= 94 -> on_grid r mx -> (mx < pow2 32)%Qc ->
  act_bw_elem true mn mx fbw = act_bw_exact_elem true mn mx fbw.
Proof.
  intros Hr Hb G U. unfold act_bw_elem, bits_approx_elem, act_bw_exact_elem. cbv zeta. rewrite <- Hr.
  destruct (qleb_spec mx (qz 0)) as [L|L].
  - rewrite (bits_pos_nonpos fbw r) by assumption.
    assert (E : qmax mx (qz 0) = qz 0) by (destruct (qmax_spec mx (qz 0)) as [[_ A]|[A _]]; [assumption|exfalso; qlra]).
    rewrite E. reflexivity.
  - destruct (bits_pos fbw r mn mx Hr Hb G L U) as [-> B].
    assert (E : qmax mx (qz 0) = mx) by (destruct (qmax_spec mx (qz 0)) as [[A _]|[_ A]]; [exfalso; qlra|assumption]).
    rewrite E, floor_log2_pos by assumption. cbn [zext_add relu_z]. lia.
Qed.
Lemma act_bw_bounds fbw r mn mx : r = qround_even fbw -> -32 <= r <= 94 ->
  on_grid r mn -> on_grid r mx -> (mn <= mx)%Qc -> (- pow2 32 <= mn)%Qc -> (mx < pow2 32)%Qc ->
  let b := act_bw_elem false mn mx fbw in let e := act_bw_exact_elem false mn mx fbw in
  e <= b <= e + 1 /\ (b = e + 1 <-> exists m, mn = (- pow2 m)%Qc /\ (mx < pow2 m)%Qc).
Proof.
  intros Hr Hb Gn Gx Hle B1 B2 b e.
  destruct (qeqb_spec mn (qz 0)) as [Z1|Z1]; [destruct (qeqb_spec mx (qz 0)) as [Z2|Z2]|].
  { unfold b, e. rewrite Z1, Z2. destruct (act_bw_zero false fbw r Hr Hb) as [-> ->]. split; [lia|]. split; [lia|].
    intros [m [C _]]. pose proof (pow2_pos m). exfalso. qlra. }
  1: assert (NZ : mn <> qz 0 \/ mx <> qz 0) by (right; assumption).
  2: assert (NZ : mn <> qz 0 \/ mx <> qz 0) by (left; assumption).
  all: clear Z1.
  all: destruct (bits_exact_nonzero fbw r mn mx Hr Hb Gn Gx Hle NZ B1 B2) as [i [E [W1 [W2 [W3 [W4 [_ W5]]]]]]].
  all: assert (Ee : e = (if qltb mn (qz 0) then 1 else 0) + i + r) by (unfold e, act_bw_exact_elem; rewrite E; lia).
  all: set (M := qmax (qabs mn) (qabs mx)) in *.
  all: assert (MP : (qabs mn <= M)%Qc /\ (qabs mx <= M)%Qc /\ (M = qabs mn \/ M = qabs mx))
    by (unfold M; destruct (qmax_spec (qabs mn) (qabs mx)) as [[A ->]|[A ->]];
        (split; [qlra|split; [qlra|auto]])).
  all: destruct MP as [M1 [M2 M3]].
  all: assert (Lx : (- M <= mx)%Qc /\ (mx <= M)%Qc) by (destruct (qabs_spec mx) as [[A C]|[A C]]; rewrite C in M2; qlra).
  all: assert (Ln : (- M <= mn)%Qc /\ (mn <= M)%Qc) by (destruct (qabs_spec mn) as [[A C]|[A C]]; rewrite C in M1; qlra).
  all: assert (MP : (qz 0 < M)%Qc) by
    (destruct (qleb_spec M (qz 0)) as [L|L]; [exfalso|assumption];
     assert (mn = qz 0) by (apply Qcle_antisym; qlra); assert (mx = qz 0) by (apply Qcle_antisym; qlra);
     destruct NZ; contradiction).
  all: assert (GM : on_grid r M) by (destruct M3 as [->| ->]; apply grid_abs; assumption).
  all: assert (MU : (M <= pow2 i)%Qc) by
    (destruct M3 as [->| ->]; [destruct (qabs_spec mn) as [[A ->]|[A ->]]|destruct (qabs_spec mx) as [[A ->]|[A ->]]]; qlra).
  all: destruct (flog2_spec M MP) as [F1 F2].
  all: assert (Fr : - r <= flog2 M) by
    (pose proof (grid_pos_ge _ _ GM MP) as L; assert (L' : (pow2 (- r) < pow2 (flog2 M + 1))%Qc) by qlra;
     apply pow2_lt_inv in L'; lia).
  all: assert (Eb : b = (if qltb mn (qz 0) then 1 else 0) + (flog2 M + 1) + r) by
    (unfold b, act_bw_elem, bits_approx_elem; cbv zeta; fold M; rewrite <- Hr, floor_log2_pos by assumption;
     cbn [zext_add relu_z]; destruct (qltb mn (qz 0)); lia).
  all: assert (I1 : i <= flog2 M + 1) by (apply W5; [qlra|qlra|lia]).
  all: assert (I2 : flog2 M <= i) by (apply pow2_le_inv; qlra).
  all: split; [lia|]; split.
  all: try (intros X; assert (Y : flog2 M = i) by lia; rewrite Y in F1;
    exists i; split; [|assumption]; assert (M = pow2 i) by (apply Qcle_antisym; assumption);
    destruct M3 as [M3|M3]; [destruct (qabs_spec mn) as [[A C]|[A C]]|destruct (qabs_spec mx) as [[A C]|[A C]]];
    rewrite C in M3; try (apply Qcle_antisym; qlra); exfalso; qlra).
  all: intros [m [C D]]; subst mn.
  all: assert (Pm := pow2_pos m).
  all: assert (Qm : qabs (- pow2 m)%Qc = pow2 m) by
    (destruct (qabs_spec (- pow2 m)%Qc) as [[A X]|[A X]]; [exfalso; qlra|rewrite X; ring]).
  all: assert (Gm : - r <= m) by
    (assert (X : (pow2 (- r) <= pow2 m)%Qc) by (apply grid_pos_ge; [rewrite <- Qm; apply grid_abs; assumption|assumption]);
     apply pow2_le_inv in X; assumption).
  all: assert (Im : i <= m) by (apply W5; [apply Qcle_refl|assumption|assumption]).
  all: rewrite Qm in M1.
  all: assert (X : (pow2 m < pow2 (flog2 M + 1))%Qc) by qlra.
  all: apply pow2_lt_inv in X; lia.
Qed.

Lemma kernel_bw_bound fl arr n w t fbw r : arr_ok fl arr -> (forall a, fl a = a) -> nth_error arr n = Some w ->
  nth_error (kernel_bw_exact fl arr) n = Some t -> r = qround_even fbw -> on_grid r w ->
  t <= kernel_bw_elem w fbw.
Proof.
  intros H Fid Hw Ht Hr G. unfold kernel_bw_exact, arr_bits_masked in Ht. rewrite map_map, nth_error_map in Ht.
  destruct (nth_error (get_arr_bits fl arr) n) as [[[k i] f]|] eqn:E; cbn [option_map] in Ht; [|discriminate].
  injection Ht as <-. destruct (arr_bits_spec fl arr n w _ H Hw E) as [S0 S1].
  unfold kernel_bw_elem. rewrite <- Hr.
  destruct (qeqb_spec w (qz 0)) as [->|NZ].
  - specialize (S0 eq_refl). injection S0 as -> -> ->. cbn. lia.
  - destruct (S1 NZ) as [i' [f' [T [G1 [U [I1 [_ [F1 [B1 B2]]]]]]]]]. injection T as -> -> ->.
    specialize (F1 Fid r G).
    assert (P : (qz 0 < qabs w)%Qc).
    { destruct (qabs_spec w) as [[A ->]|[A ->]]; [|qlra]. destruct (qc_neq_lt w (qz 0) NZ); [exfalso; qlra|assumption]. }
    rewrite floor_log2_pos by assumption. cbn [zext_add relu_z].
    destruct (flog2_spec _ P) as [_ F2]. specialize (I1 _ F2).
    set (k := if qltb w (qz 0) then 1 else 0). assert (0 <= k <= 1) by (unfold k; destruct (qltb _ _); lia).
    rewrite (i8_small (k + i' + f')) by lia. destruct (Z.eqb_spec (k + i' + f') 0); lia.
Qed.

(** ** Statement-level facts *)
Lemma bits_cover_minimal fbw r mn mx k i f :
  nearest_even fbw r -> -32 <= r <= 94 -> on_grid r mn -> on_grid r mx -> (mn <= mx)%Qc ->
  (- pow2 32 <= mn)%Qc -> (mx < pow2 32)%Qc -> bits_exact_elem false mn mx fbw = (k, i, f) ->
  (mn = qz 0 /\ mx = qz 0 /\ k = 0 /\ i = 0 /\ f = 0) \/
  ((mn <> qz 0 \/ mx <> qz 0) /\ (k = 0 \/ k = 1) /\ (k = 1 <-> (mn < qz 0)%Qc) /\ f = r /\ 0 < k + i + f /\
   (forall v, on_grid r v -> (mn <= v)%Qc -> (v <= mx)%Qc -> fits k i f v) /\
   (forall i', fits k i' f mn -> fits k i' f mx -> i <= i')).
Proof.
  intros Hr Hb Gn Gx Hle B1 B2 E. apply nearest_even_fun in Hr.
  destruct (qeqb_spec mn (qz 0)) as [Z1|Z1]; [destruct (qeqb_spec mx (qz 0)) as [Z2|Z2]|].
  { left. subst mn mx. rewrite (bits_exact_zero fbw r) in E by assumption. injection E as <- <- <-. auto. }
  1: assert (NZ : mn <> qz 0 \/ mx <> qz 0) by (right; assumption).
  2: assert (NZ : mn <> qz 0 \/ mx <> qz 0) by (left; assumption).
  all: right; destruct (bits_exact_nonzero fbw r mn mx Hr Hb Gn Gx Hle NZ B1 B2) as [j [E' [W1 [W2 [W3 [W4 [_ W5]]]]]]].
  all: rewrite E' in E; injection E as Ek <- <-.
  all: split; [assumption|]; split; [destruct (qltb mn (qz 0)); auto|].
  all: split; [rewrite <- Ek; destruct (qltb_spec mn (qz 0)); split; intros; try lia; try assumption; exfalso; qlra|].
  all: split; [reflexivity|]; split.
  1,3: rewrite <- Ek; destruct (qltb_spec mn (qz 0)) as [A|A]; [lia|]; specialize (W4 A); lia.
  all: split.
  1,3: intros v Gv L U; split; [assumption|]; split; [|qlra];
    rewrite <- Ek; destruct (qltb_spec mn (qz 0)) as [A|A];
    [replace (qz 1 * pow2 j)%Qc with (pow2 j) by (change (qz 1) with 1%Qc; ring); qlra
    |replace (qz 0 * pow2 j)%Qc with (qz 0) by (change (qz 0) with 0%Qc; ring); qlra].
  all: intros i' [G1 [L1 U1]] [G2 [L2 U2]]; rewrite <- Ek in *; destruct (qltb_spec mn (qz 0)) as [A|A].
  all: try (replace (qz 1 * pow2 i')%Qc with (pow2 i') in * by (change (qz 1) with 1%Qc; ring)).
  all: try (apply W5; [assumption|assumption|];
    assert (X : (pow2 (- r) <= - mn)%Qc) by (apply grid_pos_ge; [apply grid_opp; assumption|qlra]);
    assert (Y : (pow2 (- r) <= pow2 i')%Qc) by qlra; apply pow2_le_inv in Y; assumption).
  all: assert (Px : (qz 0 < mx)%Qc) by
    (destruct (qleb_spec mx (qz 0)) as [L|L]; [exfalso|assumption];
     assert (mx = qz 0) by (apply Qcle_antisym; qlra); assert (mn = qz 0) by (apply Qcle_antisym; qlra);
     destruct NZ; contradiction).
  all: pose proof (grid_pos_ge _ _ Gx Px) as X; pose proof (pow2_pos i') as P.
  all: assert (Y : (pow2 (- r) < pow2 i')%Qc) by qlra; apply pow2_lt_inv in Y.
  all: apply W5; [qlra|assumption|lia].
Qed.

Lemma bits_pos_cover_minimal fbw r mn mx k i f :
  nearest_even fbw r -> -32 <= r <= 94 -> on_grid r mx -> (mx < pow2 32)%Qc ->
  bits_exact_elem true mn mx fbw = (k, i, f) ->
  ((mx <= qz 0)%Qc /\ k = 0 /\ i = 0 /\ f = 0) \/
  ((qz 0 < mx)%Qc /\ k = 0 /\ f = r /\ 0 < i + f /\
   (forall v, on_grid r v -> (v <= mx)%Qc -> fits k i f (qmax v (qz 0))) /\
   (forall i', fits 0 i' f mx -> i <= i')).
Proof.
  intros Hr Hb G U E. apply nearest_even_fun in Hr. destruct (qleb_spec mx (qz 0)) as [L|L].
  - left. rewrite (bits_pos_nonpos fbw r) in E by assumption. injection E as <- <- <-. auto.
  - right. destruct (bits_pos fbw r mn mx Hr Hb G L U) as [E' B]. rewrite E' in E. injection E as <- <- <-.
    destruct (flog2_spec _ L) as [F1 F2].
    split; [assumption|]. split; [reflexivity|]. split; [reflexivity|]. split; [lia|]. split.
    + intros v Gv Lv. pose proof (pow2_pos (flog2 mx + 1)) as P.
      replace (qz 0 * pow2 (flog2 mx + 1))%Qc with (qz 0) by (change (qz 0) with 0%Qc; ring).
      destruct (qmax_spec v (qz 0)) as [[A ->]|[A ->]]; split.
      * apply grid_0.
      * split; [|assumption].
        replace (qz 0 * pow2 (flog2 mx + 1))%Qc with (qz 0) by (change (qz 0) with 0%Qc; ring). qlra.
      * assumption.
      * split; [|qlra].
        replace (qz 0 * pow2 (flog2 mx + 1))%Qc with (qz 0) by (change (qz 0) with 0%Qc; ring). qlra.
    + intros i' [_ [_ U']]. apply flog2_lt_iff in U'; [lia|assumption].
Qed.
