(** Arithmetic of fixed-point formats. *)
From Coq Require Import ZArith Qcanon List Bool String Lia.
From Verif Require Import Base.Num Base.NumFacts Base.Tensor Model.FixedPoint Model.Precision Spec.Fixed Spec.Precision Proofs.FixedPointP Proofs.ContainerP.
Import ListNotations.
Open Scope Z_scope.

Lemma mul0 x : (qz 0 * x)%Qc = qz 0.
Proof. rewrite qz_0. ring. Qed.
Lemma grid_add f x y : on_grid f x -> on_grid f y -> on_grid f (x + y)%Qc.
Proof. intros [m ->] [n ->]. exists (m + n). rewrite qz_add. ring. Qed.
Lemma grid_opp f x : on_grid f x -> on_grid f (- x)%Qc.
Proof. intros [m ->]. exists (- m). rewrite qz_opp. ring. Qed.
Lemma grid_mul f g x y : on_grid f x -> on_grid g y -> on_grid (f + g) (x * y)%Qc.
Proof. intros [m ->] [n ->]. exists (m * n). rewrite qz_mul. replace (- (f + g)) with (- f + - g) by lia. rewrite pow2_add. ring. Qed.
Lemma grid_0 f : on_grid f (qz 0).
Proof. exists 0. rewrite mul0. reflexivity. Qed.
Lemma grid_sum f l : Forall (on_grid f) l -> on_grid f (qsum l).
Proof. induction 1; cbn; [apply grid_0|apply grid_add; assumption]. Qed.
Lemma kpow k i : k = 0 \/ k = 1 -> (qz 0 <= qz k * pow2 i)%Qc.
Proof. intros [->| ->]; pose proof (pow2_pos i); qlra. Qed.
Lemma fits_0 k i f : k = 0 \/ k = 1 -> fits k i f (qz 0).
Proof. intros Hk. pose proof (kpow k i Hk). pose proof (pow2_pos i). split; [apply grid_0|]. split; qlra. Qed.
Lemma fits_mono k i f k' i' f' x : (k = 0 \/ k = 1) -> (k' = 0 \/ k' = 1) -> k <= k' -> i <= i' -> f <= f' -> fits k i f x -> fits k' i' f' x.
Proof.
  intros Hk Hk' H1 H2 H3 [G [A B]]. split; [eapply grid_mono; eassumption|]. pose proof (pow2_le _ _ H2) as P. pose proof (pow2_pos i).
  split; [|qlra]. destruct Hk as [->| ->], Hk' as [->| ->]; try lia; qlra.
Qed.

Lemma qsum_low a l : Forall (fun x => a <= x)%Qc l -> (qz (Z.of_nat (List.length l)) * a <= qsum l)%Qc.
Proof.
  induction 1 as [|x l H _ IH]; cbn [List.length qsum fold_right]; [rewrite mul0; qlra|].
  rewrite Nat2Z.inj_succ. unfold Z.succ. rewrite qz_add. fold (qsum l).
  replace ((qz (Z.of_nat (List.length l)) + qz 1) * a)%Qc with (qz (Z.of_nat (List.length l)) * a + a)%Qc by (change (qz 1) with 1%Qc; ring).
  generalize dependent (qz (Z.of_nat (List.length l)) * a)%Qc. intros. qlra.
Qed.
Lemma qsum_high b l : Forall (fun x => x <= b)%Qc l -> (qsum l <= qz (Z.of_nat (List.length l)) * b)%Qc.
Proof.
  induction 1 as [|x l H _ IH]; cbn [List.length qsum fold_right]; [rewrite mul0; qlra|].
  rewrite Nat2Z.inj_succ. unfold Z.succ. rewrite qz_add. fold (qsum l).
  replace ((qz (Z.of_nat (List.length l)) + qz 1) * b)%Qc with (qz (Z.of_nat (List.length l)) * b + b)%Qc by (change (qz 1) with 1%Qc; ring).
  generalize dependent (qz (Z.of_nat (List.length l)) * b)%Qc. intros. qlra.
Qed.
Lemma qsum_strict b l : Forall (fun x => x <= b)%Qc l -> Exists (fun x => x < b)%Qc l -> (qsum l < qz (Z.of_nat (List.length l)) * b)%Qc.
Proof.
  intros H E. induction E as [x l Hx|x l E IH]; inversion H as [|? ? H1 H2]; subst; cbn [List.length qsum fold_right];
  rewrite Nat2Z.inj_succ; unfold Z.succ; rewrite qz_add; fold (qsum l);
  replace ((qz (Z.of_nat (List.length l)) + qz 1) * b)%Qc with (qz (Z.of_nat (List.length l)) * b + b)%Qc by (change (qz 1) with 1%Qc; ring).
  - pose proof (qsum_high b l H2) as Q. generalize dependent (qz (Z.of_nat (List.length l)) * b)%Qc. intros. qlra.
  - specialize (IH H2). generalize dependent (qz (Z.of_nat (List.length l)) * b)%Qc. intros. qlra.
Qed.

(** n numbers bounded by P add up to at most 2^c P when n <= 2^c. *)
Lemma count_le n c P : (Z.of_nat n <= 2 ^ c) -> 0 <= c -> (qz 0 <= P)%Qc -> (qz (Z.of_nat n) * P <= pow2 c * P)%Qc.
Proof. intros H Hc HP. apply qmul_le_r; [exact HP|]. rewrite pow2_Z by lia. apply qz_le, H. Qed.

Lemma fits_sum k i f c l : (k = 0 \/ k = 1) -> 0 <= c -> Z.of_nat (List.length l) <= 2 ^ c -> Forall (fits k i f) l -> fits k (i + c) f (qsum l).
Proof.
  intros Hk Hc Hn H. split; [apply grid_sum; eapply Forall_impl; [|exact H]; intros x [G _]; exact G|].
  pose proof (pow2_pos i) as PI. pose proof (kpow k i Hk) as PK.
  replace (i + c) with (c + i) by lia. rewrite pow2_add. split.
  - assert (L : Forall (fun x => - (qz k * pow2 i) <= x)%Qc l) by (eapply Forall_impl; [|exact H]; intros x [_ [A _]]; exact A).
    apply qsum_low in L. pose proof (count_le _ c (qz k * pow2 i)%Qc Hn Hc PK) as Q.
    replace (qz k * (pow2 c * pow2 i))%Qc with (pow2 c * (qz k * pow2 i))%Qc by ring.
    replace (qz (Z.of_nat (List.length l)) * - (qz k * pow2 i))%Qc with (- (qz (Z.of_nat (List.length l)) * (qz k * pow2 i)))%Qc in L by ring.
    generalize dependent (qz (Z.of_nat (List.length l)) * (qz k * pow2 i))%Qc. generalize (pow2 c * (qz k * pow2 i))%Qc. intros. qlra.
  - destruct l as [|x l].
    + cbn. pose proof (pow2_pos (c + i)) as Q. rewrite pow2_add in Q. exact Q.
    + assert (L : Forall (fun x => x <= pow2 i)%Qc (x :: l)) by (eapply Forall_impl; [|exact H]; intros y [_ [_ B]]; qlra).
      assert (E : Exists (fun x => x < pow2 i)%Qc (x :: l)) by (inversion H as [|? ? [_ [_ B]]]; subst; constructor; exact B).
      pose proof (qsum_strict _ _ L E) as S. pose proof (count_le _ c (pow2 i) Hn Hc ltac:(qlra)) as Q.
      generalize dependent (qz (Z.of_nat (List.length (x :: l))) * pow2 i)%Qc. generalize (pow2 c * pow2 i)%Qc. intros. qlra.
Qed.

(** Means of 2^c numbers. *)
Lemma fits_mean k i f c l : (k = 0 \/ k = 1) -> 0 <= c -> Z.of_nat (List.length l) = 2 ^ c -> Forall (fits k i f) l ->
  fits k i (f + c) (qsum l / qz (Z.of_nat (List.length l)))%Qc.
Proof.
  intros Hk Hc Hn H. pose proof (fits_sum k i f c l Hk Hc ltac:(lia) H) as [G [A B]].
  rewrite Hn, <- pow2_Z by lia. rewrite div_pow2. split; [|split].
  - destruct G as [m ->]. exists m. replace (- (f + c)) with (- f + - c) by lia. rewrite pow2_add. ring.
  - rewrite pow2_add in A. eapply (qmul_le_r_inv _ _ _ (pow2_pos c)). rewrite mul_pow2_cancel'.
    replace (- (qz k * pow2 i) * pow2 c)%Qc with (- (qz k * (pow2 i * pow2 c)))%Qc by ring. exact A.
  - rewrite pow2_add in B. eapply (qmul_lt_r_inv _ _ _ (pow2_pos c)). rewrite mul_pow2_cancel'. exact B.
Qed.

(** Products. *)
Lemma prod_bounds W P w x : (qz 0 < W)%Qc -> (qz 0 < P)%Qc -> (- W <= w)%Qc -> (w <= W)%Qc -> (- P <= x)%Qc -> (x <= P)%Qc ->
  (- (W * P) <= w * x)%Qc /\ (w * x <= W * P)%Qc.
Proof.
  intros HW HP A B C D.
  assert (Q1 : (qz 0 <= (W - w) * (P + x))%Qc) by (pose proof (qmul_le_r (qz 0) (W - w) (P + x) ltac:(qlra) ltac:(qlra)) as Q; rewrite mul0 in Q; exact Q).
  assert (Q2 : (qz 0 <= (W + w) * (P - x))%Qc) by (pose proof (qmul_le_r (qz 0) (W + w) (P - x) ltac:(qlra) ltac:(qlra)) as Q; rewrite mul0 in Q; exact Q).
  assert (Q3 : (qz 0 <= (W - w) * (P - x))%Qc) by (pose proof (qmul_le_r (qz 0) (W - w) (P - x) ltac:(qlra) ltac:(qlra)) as Q; rewrite mul0 in Q; exact Q).
  assert (Q4 : (qz 0 <= (W + w) * (P + x))%Qc) by (pose proof (qmul_le_r (qz 0) (W + w) (P + x) ltac:(qlra) ltac:(qlra)) as Q; rewrite mul0 in Q; exact Q).
  replace ((W - w) * (P + x))%Qc with (W * P + W * x - w * P - w * x)%Qc in Q1 by ring.
  replace ((W + w) * (P - x))%Qc with (W * P - W * x + w * P - w * x)%Qc in Q2 by ring.
  replace ((W - w) * (P - x))%Qc with (W * P - W * x - w * P + w * x)%Qc in Q3 by ring.
  replace ((W + w) * (P + x))%Qc with (W * P + W * x + w * P + w * x)%Qc in Q4 by ring.
  generalize dependent (W * P)%Qc. generalize dependent (W * x)%Qc. generalize dependent (w * P)%Qc. generalize dependent (w * x)%Qc. intros. split; qlra.
Qed.
Lemma prod_strict W P w x : (qz 0 < W)%Qc -> (qz 0 < P)%Qc -> (- W < w)%Qc -> (w < W)%Qc -> (- P <= x)%Qc -> (x <= P)%Qc ->
  (w * x < W * P)%Qc.
Proof.
  intros HW HP A B C D. destruct (qleb_spec (qz 0) w) as [L|L].
  - assert (Q : (x * w <= P * w)%Qc) by (apply qmul_le_r; assumption). assert (Q' : (w * P < W * P)%Qc) by (apply qmul_lt_r; assumption).
    replace (x * w)%Qc with (w * x)%Qc in Q by ring. replace (P * w)%Qc with (w * P)%Qc in Q by ring.
    generalize dependent (W * P)%Qc. generalize dependent (w * P)%Qc. generalize dependent (w * x)%Qc. intros. qlra.
  - assert (Q : (- x * - w <= P * - w)%Qc) by (apply qmul_le_r; qlra). assert (Q' : (- w * P < W * P)%Qc) by (apply qmul_lt_r; qlra).
    replace (- x * - w)%Qc with (w * x)%Qc in Q by ring. replace (P * - w)%Qc with (- w * P)%Qc in Q by ring.
    generalize dependent (W * P)%Qc. generalize dependent (- w * P)%Qc. generalize dependent (w * x)%Qc. intros. qlra.
Qed.
Lemma prod_nonneg w x : (qz 0 <= w)%Qc -> (qz 0 <= x)%Qc -> (qz 0 <= w * x)%Qc.
Proof. intros A B. pose proof (qmul_le_r (qz 0) w x B A) as Q. rewrite mul0 in Q. exact Q. Qed.
Lemma prod_small W P w x : (qz 0 < W)%Qc -> (qz 0 < P)%Qc -> (- W <= w)%Qc -> (w < W)%Qc -> (qz 0 <= x)%Qc -> (x < P)%Qc ->
  (w * x < W * P)%Qc.
Proof.
  intros HW HP A B C D. assert (Q : (x * W < P * W)%Qc) by (apply qmul_lt_r; assumption).
  assert (Q' : (w * x <= W * x)%Qc) by (apply qmul_le_r; qlra).
  replace (x * W)%Qc with (W * x)%Qc in Q by ring. replace (P * W)%Qc with (W * P)%Qc in Q by ring.
  generalize dependent (W * P)%Qc. generalize dependent (W * x)%Qc. generalize dependent (w * x)%Qc. intros. qlra.
Qed.

Lemma fits_range k i f x : (k = 0 \/ k = 1) -> fits k i f x -> (- pow2 i <= x)%Qc /\ (x < pow2 i)%Qc.
Proof. intros Hk [_ [A B]]. pose proof (pow2_pos i). split; [|exact B]. destruct Hk as [->| ->]; qlra. Qed.

(** A scalar product of n weights with n values. *)
Lemma fits_dot k i f wk wi wf c ws xs : (k = 0 \/ k = 1) -> (wk = 0 \/ wk = 1) -> 0 <= c -> Z.of_nat (List.length ws) <= 2 ^ c -> List.length xs = List.length ws ->
  Forall (fits wk wi wf) ws -> Forall (fits k i f) xs -> (k = 0 \/ ~ Forall (fun w => w = - pow2 wi)%Qc ws) ->
  fits (Z.max k wk) (i + wi + c) (f + wf) (dotq ws xs).
Proof.
  intros Hk Hwk Hc Hn Hl HW HX HS.
  set (ps := map (fun p => (fst p * snd p)%Qc) (combine ws xs)).
  assert (Lp : List.length ps = List.length ws) by (unfold ps; rewrite map_length, combine_length, Hl; apply Nat.min_id).
  assert (F : forall w x, In (w, x) (combine ws xs) -> fits wk wi wf w /\ fits k i f x).
  { intros w x H. rewrite Forall_forall in HW, HX. split; [apply HW; eapply in_combine_l, H|apply HX; eapply in_combine_r, H]. }
  pose proof (pow2_pos i) as PP. pose proof (pow2_pos wi) as PW.
  assert (FP : Forall (fun y => on_grid (f + wf) y /\ - (qz (Z.max k wk) * (pow2 wi * pow2 i)) <= y /\ y <= pow2 wi * pow2 i)%Qc ps).
  { unfold ps. rewrite Forall_map, Forall_forall. intros [w x] H. destruct (F w x H) as [FW FX]. cbn [fst snd].
    pose proof (fits_range _ _ _ _ Hwk FW) as [A B]. pose proof (fits_range _ _ _ _ Hk FX) as [C D].
    pose proof (prod_bounds (pow2 wi) (pow2 i) w x PW PP A ltac:(qlra) C ltac:(qlra)) as [E1 E2].
    split; [replace (f + wf) with (wf + f) by lia; apply grid_mul; [apply FW|apply FX]|]. split; [|exact E2].
    destruct FW as [_ [FW _]], FX as [_ [FX _]].
    destruct Hk as [->| ->], Hwk as [->| ->]; cbn [Z.max Z.compare Pos.compare Pos.compare_cont]; change (qz 1) with 1%Qc in *;
      try (replace (- (1 * (pow2 wi * pow2 i)))%Qc with (- (pow2 wi * pow2 i))%Qc by ring; exact E1).
    pose proof (prod_nonneg w x ltac:(qlra) ltac:(qlra)) as Q. rewrite mul0. replace (- qz 0)%Qc with (qz 0) by (rewrite qz_0; ring). exact Q. }
  assert (HK : Z.max k wk = 0 \/ Z.max k wk = 1) by lia.
  change (dotq ws xs) with (qsum ps). split; [|split].
  - apply grid_sum. eapply Forall_impl; [|exact FP]. intros y [G _]. exact G.
  - assert (L : Forall (fun y => - (qz (Z.max k wk) * (pow2 wi * pow2 i)) <= y)%Qc ps) by (eapply Forall_impl; [|exact FP]; intros y [_ [A _]]; exact A).
    apply qsum_low in L. rewrite Lp in L.
    assert (PK : (qz 0 <= qz (Z.max k wk) * (pow2 wi * pow2 i))%Qc) by (rewrite <- pow2_add; apply kpow, HK).
    pose proof (count_le _ c _ Hn Hc PK) as Q. replace (i + wi + c) with (c + (wi + i)) by lia. rewrite !pow2_add.
    replace (qz (Z.max k wk) * (pow2 c * (pow2 wi * pow2 i)))%Qc with (pow2 c * (qz (Z.max k wk) * (pow2 wi * pow2 i)))%Qc by ring.
    replace (qz (Z.of_nat (List.length ws)) * - (qz (Z.max k wk) * (pow2 wi * pow2 i)))%Qc with (- (qz (Z.of_nat (List.length ws)) * (qz (Z.max k wk) * (pow2 wi * pow2 i))))%Qc in L by ring.
    generalize dependent (qz (Z.of_nat (List.length ws)) * (qz (Z.max k wk) * (pow2 wi * pow2 i)))%Qc. generalize (pow2 c * (qz (Z.max k wk) * (pow2 wi * pow2 i)))%Qc. intros. qlra.
  - replace (i + wi + c) with (c + (wi + i)) by lia. rewrite !pow2_add.
    assert (L : Forall (fun y => y <= pow2 wi * pow2 i)%Qc ps) by (eapply Forall_impl; [|exact FP]; intros y [_ [_ B]]; exact B).
    assert (CS : List.length ws = 0%nat \/ (0 < List.length ws)%nat) by lia. destruct CS as [CS|NE].
    { rewrite CS in Lp. destruct ps; [|discriminate]. cbn. pose proof (pow2_pos (c + (wi + i))) as Q. rewrite !pow2_add in Q. exact Q. }
    assert (E : Exists (fun y => y < pow2 wi * pow2 i)%Qc ps).
    { assert (EX : exists w x, In (w, x) (combine ws xs) /\ (k = 0 \/ (- pow2 wi < w)%Qc)).
      { destruct HS as [H0|HS].
        - destruct ws as [|w ws']; [cbn in NE; lia|]. destruct xs as [|x xs']; [discriminate|]. exists w, x. split; [left; reflexivity|auto].
        - destruct (Forall_Exists_dec (fun w => w = (- pow2 wi)%Qc) (fun w => Qc_eq_dec w (- pow2 wi)%Qc) ws) as [Hall|Hex]; [tauto|].
          apply Exists_exists in Hex. destruct Hex as [w [Hw Nw]]. destruct (In_nth _ _ (qz 0) Hw) as [j [Hj Ej]].
          exists w, (nth j xs (qz 0)). split; [rewrite <- Ej, <- combine_nth by (symmetry; exact Hl); apply nth_In; rewrite combine_length, Hl; lia|].
          right. rewrite Forall_forall in HW. destruct (fits_range _ _ _ _ Hwk (HW w Hw)) as [A _]. apply qc_neq_lt in Nw. destruct Nw; [qlra|assumption]. }
      destruct EX as [w [x [Hin Hs]]]. apply Exists_exists. exists (w * x)%Qc. split; [unfold ps; apply in_map_iff; exists (w, x); split; [reflexivity|exact Hin]|].
      destruct (F w x Hin) as [FW FX]. pose proof (fits_range _ _ _ _ Hwk FW) as [A B]. pose proof (fits_range _ _ _ _ Hk FX) as [C D].
      destruct Hs as [->|Hs]; [|apply prod_strict; auto; qlra]. destruct FX as [_ [FX _]]. apply prod_small; auto; qlra. }
    pose proof (qsum_strict _ _ L E) as S. rewrite Lp in S.
    assert (PWP : (qz 0 <= pow2 wi * pow2 i)%Qc) by (rewrite <- pow2_add; pose proof (pow2_pos (wi + i)); qlra).
    pose proof (count_le _ c _ Hn Hc PWP) as Q.
    generalize dependent (qz (Z.of_nat (List.length ws)) * (pow2 wi * pow2 i))%Qc. generalize (pow2 c * (pow2 wi * pow2 i))%Qc. intros. qlra.
Qed.

(** Containers of kernels, including all-zero ones. *)
Lemma container_fits arr k i f : Forall plain_value arr -> get_arr_container arr = (k, i, f) -> (k = 0 \/ k = 1) /\ Forall (fits k i f) arr.
Proof.
  intros H E. destruct (forallb (fun x => qeqb x (qz 0)) arr) eqn:Z.
  - unfold get_arr_container in E. rewrite Z in E. injection E as <- <- <-. split; [auto|]. apply not_all_zero in Z.
    eapply Forall_impl; [|exact Z]. intros x ->. apply fits_0. auto.
  - assert (NZ : ~ Forall (fun x => x = qz 0) arr) by (intros C; apply not_all_zero in C; congruence).
    destruct (container_spec arr k i f) as [A [_ [_ [B _]]]]; auto; eapply Forall_impl; try exact H; intros x [G [L U]]; [exact G|split; assumption].
Qed.

(** Representable values of a format. *)
Lemma representable_fits k b i y : (k = 0 \/ k = 1) -> k <= b -> representable k b i y -> fits k (i - k) (b - i) y.
Proof.
  intros Hk Hb [m [C ->]]. split; [|split].
  - exists m. f_equal. f_equal. lia.
  - assert (A : - (k * 2 ^ (b - k)) <= m) by (apply code_iff in C; [unfold lo in C; lia|assumption|assumption]).
    replace (i - k) with ((b - k) + (i - b)) by lia. rewrite pow2_add, (pow2_Z (b - k)) by lia.
    replace (- (qz k * (qz (2 ^ (b - k)) * pow2 (i - b))))%Qc with (qz (- (k * 2 ^ (b - k))) * pow2 (i - b))%Qc by (rewrite qz_opp, qz_mul; ring).
    apply qmul_le_r; [pose proof (pow2_pos (i - b)); qlra|]. apply qz_le, A.
  - assert (A : m < 2 ^ (b - k)) by (apply code_iff in C; [unfold hi in C; lia|assumption|assumption]).
    replace (i - k) with ((b - k) + (i - b)) by lia. rewrite pow2_add, (pow2_Z (b - k)) by lia.
    apply qmul_lt_r; [apply pow2_pos|]. apply qz_lt, A.
Qed.
Lemma gfixed_fits x k b i R S y : (k = 0 \/ k = 1) -> k <= b -> gfixed_quantizer x k b i R S = Ok y -> fits k (i - k) (b - i) y.
Proof.
  intros Hk Hb H. destruct (Z.eq_dec b 0) as [->|N].
  - apply gfixed_some in H as [? [? [_ [_ ->]]]]. rewrite gfixed_elem_z. apply fits_0, Hk.
  - apply representable_fits; auto. eapply gfixed_representable; eauto.
Qed.
