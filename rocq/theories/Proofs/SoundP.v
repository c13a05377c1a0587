(** The derived precision of a layer contains all its outputs. *)
From Coq Require Import ZArith Qcanon List Bool String Lia.
From Verif Require Import Base.Num Base.NumFacts Base.Tensor Model.FixedPoint Model.Precision Spec.Fixed Spec.Precision Proofs.FixedPointP Proofs.ContainerP Proofs.FitsP Proofs.PrecisionP.
Import ListNotations.
Open Scope Z_scope.

(** A precision is right for a set of values. *)
Definition right (t : kif) (P : Qc -> Prop) : Prop :=
  (fst (fst t) = 0 \/ fst (fst t) = 1) /\ forall y, P y -> fits (fst (fst t)) (snd (fst t)) (snd t) y.

(** ** Maxima *)
Lemma kifs_max_ge l m : kifs_max l = Ok m -> forall t, In t l -> fst (fst t) <= fst (fst m) /\ snd (fst t) <= snd (fst m) /\ snd t <= snd m.
Proof.
  destruct l as [|a l]; [discriminate|]. cbn. intros E. injection E as <-. revert a. induction l as [|b l IH]; intros a t H; cbn.
  - destruct H as [<-|[]]. lia.
  - assert (HA : forall u, u = a \/ u = b -> fst (fst u) <= fst (fst (kif_max a b)) /\ snd (fst u) <= snd (fst (kif_max a b)) /\ snd u <= snd (kif_max a b)).
    { intros u Hu. destruct a as [[? ?] ?], b as [[? ?] ?]. destruct Hu as [->| ->]; cbn; lia. }
    pose proof (IH (kif_max a b) (kif_max a b) (or_introl eq_refl)) as S.
    destruct H as [<-|[<-|H]].
    + specialize (HA a (or_introl eq_refl)). lia.
    + specialize (HA b (or_intror eq_refl)). lia.
    + apply IH. right. exact H.
Qed.
Lemma kifs_max_sign l m : kifs_max l = Ok m -> Forall (fun t => fst (fst t) = 0 \/ fst (fst t) = 1) l -> fst (fst m) = 0 \/ fst (fst m) = 1.
Proof.
  destruct l as [|a l]; [discriminate|]. cbn. intros E. injection E as <-. intros H. inversion H as [|? ? Ha Hl]; subst. clear H. revert a Ha.
  induction Hl as [|b l Hb Hl IH]; intros a Ha; cbn; [assumption|]. apply IH. destruct a as [[? ?] ?], b as [[? ?] ?]. cbn in *. lia.
Qed.
Lemma kifs_max_right l m (P : kif -> Qc -> Prop) : kifs_max l = Ok m -> Forall (fun t => right t (P t)) l ->
  forall t y, In t l -> P t y -> fits (fst (fst m)) (snd (fst m)) (snd m) y.
Proof.
  intros E H t y Ht Hy. pose proof (kifs_max_ge l m E t Ht) as G. assert (S : fst (fst m) = 0 \/ fst (fst m) = 1).
  { eapply kifs_max_sign; [exact E|]. eapply Forall_impl; [|exact H]. intros u [Hu _]. exact Hu. }
  rewrite Forall_forall in H. destruct (H t Ht) as [Sk F]. eapply fits_mono; [exact Sk|exact S| | | |apply F, Hy]; lia.
Qed.

Lemma F2_length {A B} (R : A -> B -> Prop) l m : Forall2 R l m -> List.length l = List.length m.
Proof. induction 1; cbn; congruence. Qed.
Lemma ok_inj {A} (a b : A) : Ok a = Ok b -> a = b.
Proof. congruence. Qed.

(** ** Activations *)
Lemma tiny k i f x : (k = 0 \/ k = 1) -> k + i + f <= 0 -> fits k i f x -> x = qz 0.
Proof.
  intros Hk H [[m ->] [A B]]. assert (m = 0); [|subst; apply mul0].
  assert (M : - 1 < m < 1); [|lia].
  assert (P : (pow2 i <= pow2 (- f))%Qc) by (apply pow2_le; destruct Hk; lia). pose proof (pow2_pos (- f)) as PF. pose proof (pow2_pos i) as PI.
  split.
  - destruct Hk as [->| ->].
    + assert (Q : (qz 0 * pow2 (- f) <= qz m * pow2 (- f))%Qc) by (rewrite !mul0 in *; qlra). apply qmul_le_r_inv in Q; [|exact PF]. apply (proj1 (qz_le _ _)) in Q. lia.
    + assert (P' : (pow2 i < pow2 (- f))%Qc) by (apply pow2_lt; lia). change (qz 1) with 1%Qc in A. replace (- (1 * pow2 i))%Qc with (- pow2 i)%Qc in A by ring.
      assert (Q : (qz (-1) * pow2 (- f) < qz m * pow2 (- f))%Qc).
      { replace (qz (-1)) with (- (1))%Qc by (apply Qc_is_canon; reflexivity). replace (- (1) * pow2 (- f))%Qc with (- pow2 (- f))%Qc by ring.
        generalize dependent (qz m * pow2 (- f))%Qc. intros. qlra. }
      apply qmul_lt_r_inv in Q; [|exact PF]. apply (proj1 (qz_lt _ _)) in Q. lia.
  - assert (Q : (qz m * pow2 (- f) < qz 1 * pow2 (- f))%Qc).
    { change (qz 1) with 1%Qc. replace (1 * pow2 (- f))%Qc with (pow2 (- f)) by ring. generalize dependent (qz m * pow2 (- f))%Qc. intros. qlra. }
    apply qmul_lt_r_inv in Q; [|exact PF]. apply (proj1 (qz_lt _ _)) in Q. lia.
Qed.

Lemma linspace_step a d n j : 1 < n -> (0 <= j < n) -> In (a + qz j * d)%Qc (linspace a (a + qz (n - 1) * d)%Qc n).
Proof.
  intros Hn Hj. unfold linspace. apply in_map_iff. exists (Z.to_nat j). split; [|apply in_seq; lia].
  rewrite Z2Nat.id by lia. f_equal. f_equal. assert (N0 : qz (n - 1) <> Q2Qc 0).
  { change (Q2Qc 0) with (qz 0). intros C. apply qz_inj in C. lia. }
  unfold Qcdiv. field. exact N0.
Qed.
Lemma linspace_only a d n x : 1 < n -> In x (linspace a (a + qz (n - 1) * d)%Qc n) -> exists j, 0 <= j < n /\ x = (a + qz j * d)%Qc.
Proof.
  intros Hn H. unfold linspace in H. apply in_map_iff in H as [j [<- Hj]]. apply in_seq in Hj. exists (Z.of_nat j). split; [lia|].
  f_equal. f_equal. assert (N0 : qz (n - 1) <> Q2Qc 0).
  { change (Q2Qc 0) with (qz 0). intros C. apply qz_inj in C. lia. }
  unfold Qcdiv. field. exact N0.
Qed.

(** The enumerated points are exactly the values of the format. *)
Lemma grid_points k i f : (k = 0 \/ k = 1) -> 1 <= k + i + f ->
  (pow2 i - pow2 (- f))%Qc = (- pow2 i * qz k + qz (2 ^ (k + i + f) - 1) * pow2 (- f))%Qc.
Proof.
  intros Hk H. rewrite qz_sub, <- pow2_Z by lia. change (qz 1) with 1%Qc.
  replace (k + i + f) with (k + (i + f)) by lia. rewrite pow2_add.
  assert (E : (pow2 (i + f) * pow2 (- f))%Qc = pow2 i) by (rewrite <- pow2_add; f_equal; lia).
  replace ((pow2 k * pow2 (i + f) - 1) * pow2 (- f))%Qc with (pow2 k * (pow2 (i + f) * pow2 (- f)) - pow2 (- f))%Qc by ring. rewrite E.
  destruct Hk as [->| ->].
  - change (pow2 0) with 1%Qc. rewrite qz_0. ring.
  - change (pow2 1) with (1 + 1)%Qc. change (qz 1) with 1%Qc. ring.
Qed.
Lemma fits_codes k i f x : (k = 0 \/ k = 1) -> 1 <= k + i + f -> (fits k i f x <-> exists j, 0 <= j < 2 ^ (k + i + f) /\ x = (- pow2 i * qz k + qz j * pow2 (- f))%Qc).
Proof.
  intros Hk H. pose proof (pow2_pos (- f)) as PF.
  assert (Ei : pow2 i = (qz (2 ^ (i + f)) * pow2 (- f))%Qc).
  { rewrite <- pow2_Z by lia. rewrite <- pow2_add. f_equal. lia. }
  assert (E2 : 2 ^ (k + i + f) = k * 2 ^ (i + f) + 2 ^ (i + f)).
  { destruct Hk as [->| ->]; [replace (0 + i + f) with (i + f) by lia; lia|]. replace (1 + i + f) with (Z.succ (i + f)) by lia. rewrite Z.pow_succ_r by lia. lia. }
  split.
  - intros [[m ->] [A B]]. exists (m + k * 2 ^ (i + f)). split.
    + rewrite Ei in A, B. apply qmul_lt_r_inv in B; [|exact PF]. apply (proj1 (qz_lt _ _)) in B.
      replace (- (qz k * (qz (2 ^ (i + f)) * pow2 (- f))))%Qc with (qz (- (k * 2 ^ (i + f))) * pow2 (- f))%Qc in A by (rewrite qz_opp, qz_mul; ring).
      apply qmul_le_r_inv in A; [|exact PF]. apply (proj1 (qz_le _ _)) in A. lia.
    + rewrite Ei, qz_add, qz_mul. ring.
  - intros [j [Hj ->]]. split; [|split].
    + exists (j - k * 2 ^ (i + f)). rewrite Ei, qz_sub, qz_mul. ring.
    + rewrite Ei. replace (- (qz k * (qz (2 ^ (i + f)) * pow2 (- f))))%Qc with (qz (- (k * 2 ^ (i + f))) * pow2 (- f))%Qc by (rewrite qz_opp, qz_mul; ring).
      replace (- (qz (2 ^ (i + f)) * pow2 (- f)) * qz k + qz j * pow2 (- f))%Qc with (qz (j - k * 2 ^ (i + f)) * pow2 (- f))%Qc by (rewrite qz_sub, qz_mul; ring).
      apply qmul_le_r; [qlra|]. apply qz_le. lia.
    + rewrite Ei. replace (- (qz (2 ^ (i + f)) * pow2 (- f)) * qz k + qz j * pow2 (- f))%Qc with (qz (j - k * 2 ^ (i + f)) * pow2 (- f))%Qc by (rewrite qz_sub, qz_mul; ring).
      apply qmul_lt_r; [exact PF|]. apply qz_lt. lia.
Qed.
Lemma pow_ge2 n : 1 <= n -> 1 < 2 ^ n.
Proof. intros H. pose proof (Z.pow_le_mono_r 2 1 n ltac:(lia) H). lia. Qed.

Lemma activation_sound func k i f t x : (k = 0 \/ k = 1) -> activation_kif_forward func (k, i, f) = Ok t ->
  k + i + f <= 20 -> -1000 <= f <= 1000 -> (forall x, fits k i f x -> plain_value (func x)) -> (k + i + f <= 0 -> plain_value (func (qz 1))) ->
  fits k i f x -> (fst (fst t) = 0 \/ fst (fst t) = 1) /\ fits (fst (fst t)) (snd (fst t)) (snd t) (func x).
Proof.
  intros Hk E H20 Hf HP H1 Hx. unfold activation_kif_forward in E.
  destruct (Z.leb_spec (k + i + f) 0) as [L|L].
  - change (Z.leb 1024 1) with false in E. cbv iota in E. cbn [Z.add] in E.
    assert (Ex : x = qz 0) by (eapply tiny; eauto). subst x. apply ok_inj in E. destruct t as [[k' i'] f']. cbn [fst snd].
    change (Z.min (2 ^ 1) (2 ^ 20)) with 2 in E.
    set (arr := map func _) in E.
    assert (Ea : arr = [func (qz 0); func (qz 1)]).
    { unfold arr. change (linspace (- pow2 1 * qz 0)%Qc (pow2 1 - fpow2 (- 0))%Qc 2) with
        [(- pow2 1 * qz 0 + qz 0 * ((pow2 1 - fpow2 (- 0) - - pow2 1 * qz 0) / qz 1))%Qc; (- pow2 1 * qz 0 + qz 1 * ((pow2 1 - fpow2 (- 0) - - pow2 1 * qz 0) / qz 1))%Qc].
      reflexivity. }
    clearbody arr. subst arr. destruct (fun PF => container_fits _ k' i' f' PF E) as [S F].
    { constructor; [apply HP, Hx|]. constructor; [auto|constructor]. }
    split; [exact S|]. inversion F; assumption.
  - destruct (Z.leb_spec 1024 i) as [L'|L']; [discriminate|]. apply ok_inj in E. destruct t as [[k' i'] f']. cbn [fst snd].
    rewrite Z.min_l in E by (apply Z.pow_le_mono_r; lia). unfold fpow2 in E. destruct (Z.ltb_spec (- f) (-1074)) as [C|_]; [lia|].
    rewrite (grid_points k i f Hk ltac:(lia)) in E.
    destruct (fun PF => container_fits _ k' i' f' PF E) as [S F].
    { apply Forall_map, Forall_forall. intros y Hy. apply linspace_only in Hy; [|apply pow_ge2; lia]. apply HP, fits_codes; auto. lia. }
    split; [exact S|]. rewrite Forall_map, Forall_forall in F. apply F. apply fits_codes in Hx; [|assumption|lia]. destruct Hx as [j [Hj ->]].
    apply linspace_step; [apply pow_ge2; lia|exact Hj].
Qed.

(** ** Kernels *)
Lemma column_in kernel div u w : 0 <= u < div -> Z.of_nat (List.length kernel) mod div = 0 -> In w (column kernel div u) -> In w kernel.
Proof.
  intros Hu Hm H. unfold column in H. apply in_map_iff in H as [j [<- Hj]]. apply in_seq in Hj. apply nth_In.
  pose proof (Z.div_mod (Z.of_nat (List.length kernel)) div ltac:(lia)) as DM. rewrite Hm in DM.
  set (q := Z.of_nat (List.length kernel) / div) in *. assert (0 <= Z.of_nat j < q) by lia. nia.
Qed.
Lemma column_length kernel div u : List.length (column kernel div u) = Z.to_nat (Z.of_nat (List.length kernel) / div).
Proof. unfold column. rewrite map_length, seq_length. reflexivity. Qed.

Lemma dot_abs P ws xs : (qz 0 <= P)%Qc -> List.length xs = List.length ws -> Forall (fun x => - P <= x /\ x <= P)%Qc xs -> (qabs (dotq ws xs) <= qsum (map qabs ws) * P)%Qc.
Proof.
  intros HP. revert xs. induction ws as [|w ws IH]; intros [|x xs] Hl HX; [|discriminate Hl|discriminate Hl|].
  - change (dotq [] []) with (qz 0). change (qsum (map qabs [])) with (qz 0). rewrite mul0. destruct (qabs_spec (qz 0)) as [[_ ->]|[H ->]]; qlra.
  - inversion HX as [|? ? [A B] HX']; subst. specialize (IH xs ltac:(cbn in Hl; lia) HX').
    change (dotq (w :: ws) (x :: xs)) with (w * x + dotq ws xs)%Qc. cbn [map]. change (qsum (qabs w :: map qabs ws)) with (qabs w + qsum (map qabs ws))%Qc.
    replace ((qabs w + qsum (map qabs ws)) * P)%Qc with (qabs w * P + qsum (map qabs ws) * P)%Qc by ring.
    assert (Q : (- (qabs w * P) <= w * x /\ w * x <= qabs w * P)%Qc).
    { destruct (qabs_spec w) as [[Hw ->]|[Hw ->]].
      - pose proof (qmul_le_r x P w Hw B) as Q1. pose proof (qmul_le_r (- P) x w Hw A) as Q2.
        replace (x * w)%Qc with (w * x)%Qc in * by ring. replace (P * w)%Qc with (w * P)%Qc in * by ring. replace (- P * w)%Qc with (- (w * P))%Qc in * by ring. split; assumption.
      - pose proof (qmul_le_r (- x) P (- w) ltac:(qlra) ltac:(qlra)) as Q1. pose proof (qmul_le_r (- P) (- x) (- w) ltac:(qlra) ltac:(qlra)) as Q2.
        replace (- x * - w)%Qc with (w * x)%Qc in * by ring. replace (P * - w)%Qc with (- w * P)%Qc in * by ring. replace (- P * - w)%Qc with (- (- w * P))%Qc in * by ring. split; assumption. }
    destruct (qabs_spec (w * x + dotq ws xs)) as [[_ ->]|[_ ->]]; destruct (qabs_spec (dotq ws xs)) as [[Hs E]|[Hs E]]; rewrite E in IH;
      destruct Q as [Q1 Q2]; generalize dependent (qsum (map qabs ws) * P)%Qc; generalize dependent (qabs w * P)%Qc; generalize dependent (w * x)%Qc; intros; qlra.
Qed.
Lemma dot_nonneg ws xs : Forall (fun w => qz 0 <= w)%Qc ws -> Forall (fun w => qz 0 <= w)%Qc xs -> (qz 0 <= dotq ws xs)%Qc.
Proof.
  intros H. revert xs. induction H as [|w ws Hw H IH]; intros xs HX; [cbn; qlra|]. destruct HX as [|x xs Hx HX]; [cbn; qlra|].
  change (dotq (w :: ws) (x :: xs)) with (w * x + dotq ws xs)%Qc. specialize (IH xs HX). pose proof (prod_nonneg w x Hw Hx) as Q.
  generalize dependent (w * x)%Qc. intros. qlra.
Qed.
Lemma dot_grid f g ws xs : Forall (on_grid g) ws -> Forall (on_grid f) xs -> on_grid (f + g) (dotq ws xs).
Proof.
  intros H. revert xs. induction H as [|w ws Hw H IH]; intros xs HX; [apply grid_0|]. destruct HX as [|x xs Hx HX]; [apply grid_0|].
  change (dotq (w :: ws) (x :: xs)) with (w * x + dotq ws xs)%Qc. apply grid_add; auto. replace (f + g) with (g + f) by lia. apply grid_mul; assumption.
Qed.

Lemma clog2_count m : 1 <= m -> 0 <= clog2 (qz m) /\ m <= 2 ^ clog2 (qz m).
Proof.
  intros H. assert (P : (qz 0 < qz m)%Qc) by (apply qz_lt; lia). destruct (clog2_spec (qz m) P) as [A B].
  assert (C : 0 <= clog2 (qz m)).
  { destruct (Z_lt_dec (clog2 (qz m)) 0) as [L|]; [|lia]. exfalso. assert (L' : clog2 (qz m) <= -1) by lia. apply clog2_le_iff in L'; [|exact P].
    assert (Q : (qz 1 <= qz m)%Qc) by (apply qz_le; lia). assert (Q' : (pow2 (-1) < qz 1)%Qc) by (change (qz 1) with (pow2 0); apply pow2_lt; lia). qlra. }
  split; [exact C|]. rewrite pow2_Z in B by exact C. apply (proj1 (qz_le _ _)) in B. exact B.
Qed.
Lemma clog2_pow c : 0 <= c -> clog2 (qz (2 ^ c)) = c.
Proof.
  intros H. rewrite <- pow2_Z by exact H. apply Z.le_antisymm; [apply clog2_le_iff; [apply pow2_pos|qlra]|].
  destruct (clog2_spec (pow2 c) (pow2_pos c)) as [_ B]. apply pow2_le_inv in B. exact B.
Qed.

Lemma kernel_sound kernel div bias s k i f t u b xs : (k = 0 \/ k = 1) -> kernel_produced (k, i, f) kernel div bias = t ->
  node_fine (NKernel kernel div bias) s [(k, i, f)] t -> 0 <= u < div -> Forall (fits k i f) xs -> List.length xs = List.length (column kernel div u) ->
  match bias with None => b = qz 0 | Some l => nth_error l (Z.to_nat u) = Some b end ->
  (fst (fst t) = 0 \/ fst (fst t) = 1) /\ fits (fst (fst t)) (snd (fst t)) (snd t) (dotq (column kernel div u) xs + b)%Qc.
Proof.
  intros Hk E NF Hu HX Hl Hb. unfold kernel_produced in E. destruct (get_arr_container kernel) as [[wk wi] wf] eqn:EC.
  cbn [node_fine] in NF. destruct NF as (Hd & HK & Hm & PV & HS & HB).
  destruct (container_fits kernel wk wi wf PV EC) as [Hwk FW].
  set (m := Z.of_nat (List.length kernel) / div) in *.
  assert (Em : Z.of_nat (List.length kernel) = m * div) by (pose proof (Z.div_mod (Z.of_nat (List.length kernel)) div ltac:(lia)); subst m; lia).
  assert (L1 : 0 < Z.of_nat (List.length kernel)) by (destruct kernel; [congruence|cbn; lia]).
  assert (M1 : 1 <= m) by nia.
  assert (Eq : (qz (Z.of_nat (List.length kernel)) / qz div)%Qc = qz m).
  { rewrite Em, qz_mul. unfold Qcdiv. rewrite <- Qcmult_assoc, Qcmult_inv_r; [ring|]. change (Q2Qc 0) with (qz 0). intros C. apply qz_inj in C. lia. }
  rewrite Eq in E. destruct (clog2_count m M1) as [C0 C1].
  set (k' := if (negb (Z.eqb k 0) || negb (Z.eqb wk 0) || match bias with None => false | Some b => existsb (fun x => qltb x (qz 0)) b end)%bool then 1 else 0) in *.
  subst t. cbn [fst snd] in *.
  assert (K' : k' = 0 \/ k' = 1) by (subst k'; match goal with |- context [if ?x then _ else _] => destruct x end; auto).
  assert (KM : Z.max k wk <= k').
  { subst k'. clearbody m. destruct Hk as [->| ->], Hwk as [->| ->]; cbn; try lia. match goal with |- _ <= (if ?x then _ else _) => destruct x end; lia. }
  split; [exact K'|].
  assert (FC : Forall (fits wk wi wf) (column kernel div u)).
  { rewrite Forall_forall in *. intros w Hw. apply FW. eapply column_in; eauto. }
  destruct bias as [l|].
  - destruct (HB k i f u b (or_introl eq_refl) Hu Hb) as [GB RB]. split; [|].
    + apply grid_add; [|exact GB]. apply dot_grid; [eapply Forall_impl; [|exact FC]|eapply Forall_impl; [|exact HX]]; intros w [G _]; exact G.
    + pose proof (pow2_pos i) as PI.
      assert (D : (qabs (dotq (column kernel div u) xs) <= qsum (map qabs (column kernel div u)) * pow2 i)%Qc).
      { apply dot_abs; [qlra|exact Hl|]. eapply Forall_impl; [|exact HX]. intros x Fx. destruct (fits_range _ _ _ _ Hk Fx). split; [assumption|qlra]. }
      destruct K' as [K0|K1].
      * assert (Z0 : k = 0 /\ wk = 0 /\ existsb (fun x => qltb x (qz 0)) l = false).
        { clear -K0 Hk Hwk. subst k'. destruct Hk as [->| ->], Hwk as [->| ->]; cbn in K0; try discriminate. split; [reflexivity|]. split; [reflexivity|]. destruct (existsb _ l); [discriminate|reflexivity]. }
        destruct Z0 as [-> [-> NB]].
        assert (B0 : (qz 0 <= b)%Qc).
        { destruct (qltb_spec b (qz 0)) as [Lb|Lb]; [|qlra]. exfalso. assert (X : existsb (fun x => qltb x (qz 0)) l = true); [|congruence].
          apply existsb_exists. exists b. split; [eapply nth_error_In; eauto|]. destruct (qltb_spec b (qz 0)); [reflexivity|qlra]. }
        assert (D0 : (qz 0 <= dotq (column kernel div u) xs)%Qc).
        { apply dot_nonneg; [eapply Forall_impl; [|exact FC]|eapply Forall_impl; [|exact HX]]; intros w [_ [G _]]; rewrite mul0 in G; qlra. }
        rewrite K0, mul0. generalize dependent (qsum (map qabs (column kernel div u)) * pow2 i)%Qc. intros Q RB D.
        destruct (qabs_spec (dotq (column kernel div u) xs)) as [[S1 E1]|[S1 E1]]; rewrite E1 in D; destruct (qabs_spec b) as [[S2 E2]|[S2 E2]]; rewrite E2 in RB; split; qlra.
      * rewrite K1. change (qz 1) with 1%Qc. generalize dependent (qsum (map qabs (column kernel div u)) * pow2 i)%Qc. intros Q RB D.
        match goal with |- context [(1 * ?p)%Qc] => replace (1 * p)%Qc with p by ring end.
        destruct (qabs_spec (dotq (column kernel div u) xs)) as [[S1 E1]|[S1 E1]]; rewrite E1 in D; destruct (qabs_spec b) as [[S2 E2]|[S2 E2]]; rewrite E2 in RB; split; qlra.
  - subst b. replace (dotq (column kernel div u) xs + qz 0)%Qc with (dotq (column kernel div u) xs) by (rewrite qz_0; ring).
    eapply fits_mono; [| | | | |eapply (fits_dot k i f wk wi wf (clog2 (qz m)))]; auto; try lia.
    + rewrite column_length. fold m. lia.
    + destruct Hk as [->| ->]; [auto|]. right. apply (HS 1 i f (or_introl eq_refl) eq_refl u wi Hu).
Qed.

(** ** The whole network *)
Lemma float_fits x : float_value x -> fits 1 65535 65535 x.
Proof. exact (fun H => H). Qed.

Ltac same_node := match goal with
  | A : nth_error ?net ?n = Some _, B : nth_error ?net ?n = Some _ |- _ => rewrite A in B; (discriminate B || (injection B as B; subst; try clear A)) end.

Theorem produced_sound fuel net s : all_fine net s -> forall n t, produced fuel net n s = Ok (t, s) -> right t (value net s n).
Proof.
  intros [AF AL]. induction fuel as [|fuel IH]; intros n t H; [discriminate|]. pose proof H as H0. rewrite produced_S in H.
  destruct (nth_error net n) as [[kd ps]|] eqn:EN; [|discriminate].
  pose proof (step_fix _ _ _ _ _ _ H) as SF.
  assert (INP : forall ts, input_kifs fuel net ps s = Ok (ts, s) -> Forall2 (fun p t => right t (value net s p)) ps ts).
  { intros ts HI. apply input_kifs_fix in HI. clear -IH HI. induction HI; constructor; auto. }
  assert (NF : forall ts, input_kifs fuel net ps s = Ok (ts, s) -> node_fine kd s ts t) by (intros ts HI; eapply AF; eauto).
  (* one input *)
  assert (ONE : forall ts, input_kifs fuel net ps s = Ok (ts, s) -> forall u, ts = [u] -> exists p, ps = [p] /\ right u (value net s p)).
  { intros ts HI u ->. pose proof (INP _ HI) as F. inversion F as [|p ? ps' ? R F' X1]; subst. inversion F'; subst. eauto. }
  (* several inputs *)
  assert (MAX : forall ts m, input_kifs fuel net ps s = Ok (ts, s) -> kifs_max ts = Ok m ->
            (fst (fst m) = 0 \/ fst (fst m) = 1) /\ List.length ts = List.length ps /\ forall p y, In p ps -> value net s p y -> fits (fst (fst m)) (snd (fst m)) (snd m) y).
  { intros ts m HI HM. pose proof (INP _ HI) as F. split.
    - eapply kifs_max_sign; [exact HM|]. clear -F. induction F as [|? ? ? ? [R _]]; constructor; auto.
    - split; [symmetry; eapply F2_length; eauto|]. intros p y Hp Hy.
      assert (G : exists u, In u ts /\ right u (value net s p)).
      { clear -F Hp. induction F as [|p' u ps ts R F IH]; [contradiction|]. destruct Hp as [->|Hp]; [exists u; split; [left; reflexivity|exact R]|].
        destruct (IH Hp) as [u' [A B]]. exists u'. split; [right; exact A|exact B]. }
      destruct G as [u [Hu [Su Ru]]]. pose proof (kifs_max_ge ts m HM u Hu) as G.
      eapply fits_mono; [exact Su| | | | |apply Ru, Hy]; try lia. eapply kifs_max_sign; [exact HM|]. clear -F. induction F as [|? ? ? ? [R _]]; constructor; auto. }
  destruct kd as [|q|a fn|sm fn|pool| | | | |kernel div bias| | |kf|]; cbn [step] in H.
  - (* input *) apply okpair in H as [<- _]. split; [right; reflexivity|]. intros y V. inversion V; subst; same_node; try assumption; intuition discriminate.
  - (* quantizer *) destruct SF as [ts HI]. rewrite HI in H. cbn [rbind fst snd] in H.
    destruct ts as [|u [|? ?]]; try discriminate. destruct (nth_error s q) as [o|] eqn:EO; [|discriminate].
    destruct (fpq_produced u o) as [r o'] eqn:EP. apply okpair in H as [<- EU]. apply (upd_same _ _ _ _ EO) in EU. subst o'.
    destruct (ONE _ HI u eq_refl) as [p [-> [Ru1 Ru2]]]. destruct (NF _ HI) as [o1 [EO1 U]]. rewrite EO in EO1. injection EO1 as <-.
    assert (KS : fst (fst r) = 0 \/ fst (fst r) = 1).
    { unfold fpq_produced in EP. destruct u as [[ik ii] jf]. cbn in Ru1. destruct (result_t_kif o) as [[ok oi] of] eqn:ER.
      assert (fst (fst r) = Z.min ik ok) by (injection EP as <- _; reflexivity).
      assert (ok = 0 \/ ok = 1); [|lia].
      destruct U as [[c [[NE [LF _]] U]]|[k0 [[NE [LF _]] [U _]]]].
      - destruct (result_t_kif_one o c NE LF U) as [E L]. rewrite ER in E. injection E as -> _ _. apply L.
      - pose proof (result_t_kif_sign o k0 NE U) as E. rewrite ER in E. cbn in E. subst ok. destruct (data (cfgs o)) as [|d ?]; [congruence|].
        inversion U as [|? ? E _]; subst. inversion LF as [|? ? L _]; subst. apply L. }
    split; [exact KS|]. intros y V. inversion V; subst; same_node; try (intuition discriminate).
    match goal with A : nth_error s ?q' = Some ?o', B : nth_error s ?q' = Some ?o2 |- _ => rewrite A in B; injection B as B; subst end.
    eapply fpq_sound; [exact EP|exact U|exact Ru1|eassumption|apply Ru2; eassumption|eassumption].
  - (* Activation *) destruct SF as [ts HI]. destruct a; rewrite HI in H; cbn [rbind fst snd] in H; destruct ts as [|u [|? ?]]; try discriminate;
    [|destruct u as [[k i] f]; destruct (activation_kif_forward fn (k, i, f)) as [r|] eqn:EA; cbn [rbind] in H; [|discriminate]; apply okpair in H as [-> _];
      destruct (ONE _ HI _ eq_refl) as [p [-> [Ru1 Ru2]]]; cbn [fst snd] in *; pose proof (NF _ HI) as N; cbn [node_fine] in N;
      destruct (N k i f (or_introl eq_refl)) as (N1 & N2 & N3 & N4 & N5); clear N;
      assert (KEY : forall x, fits k i f x -> (fst (fst t) = 0 \/ fst (fst t) = 1) /\ fits (fst (fst t)) (snd (fst t)) (snd t) (fn x))
        by (intros x Fx; eapply activation_sound; eauto);
      (split; [apply (KEY (qz 0)), fits_0, Ru1|]; intros y V; inversion V; subst; same_node; try (intuition discriminate); apply KEY, Ru2; assumption) ..].
    (* softmax *)
    apply okpair in H as [<- _]. split; [left; reflexivity|]. intros y V. inversion V; subst; same_node; try (intuition congruence).
    cbn [fst snd]. destruct H4 as [G _]. split; [exact G|]. rewrite mul0. change (qz 1) with (pow2 0) in *. pose proof (pow2_lt 0 1 ltac:(lia)). split; qlra.
  - (* ReLU, Softmax *) destruct SF as [ts HI]. destruct sm; rewrite HI in H; cbn [rbind fst snd] in H; destruct ts as [|u [|? ?]]; try discriminate;
    [|destruct u as [[k i] f]; destruct (activation_kif_forward fn (k, i, f)) as [r|] eqn:EA; cbn [rbind] in H; [|discriminate]; apply okpair in H as [-> _];
      destruct (ONE _ HI _ eq_refl) as [p [-> [Ru1 Ru2]]]; cbn [fst snd] in *; pose proof (NF _ HI) as N; cbn [node_fine] in N;
      destruct (N k i f (or_introl eq_refl)) as (N1 & N2 & N3 & N4 & N5); clear N;
      assert (KEY : forall x, fits k i f x -> (fst (fst t) = 0 \/ fst (fst t) = 1) /\ fits (fst (fst t)) (snd (fst t)) (snd t) (fn x))
        by (intros x Fx; eapply activation_sound; eauto);
      (split; [apply (KEY (qz 0)), fits_0, Ru1|]; intros y V; inversion V; subst; same_node; try (intuition discriminate); apply KEY, Ru2; assumption)].
    apply okpair in H as [<- _]. split; [left; reflexivity|]. intros y V. inversion V; subst; same_node; try (intuition congruence).
    cbn [fst snd]. destruct H4 as [G _]. split; [exact G|]. rewrite mul0. change (qz 1) with (pow2 0) in *. pose proof (pow2_lt 0 1 ltac:(lia)). split; qlra.
  - (* AvgPool *) destruct SF as [ts HI]. rewrite HI in H. cbn [rbind fst snd] in H. destruct ts as [|[[k i] f] [|? ?]]; try discriminate.
    destruct (ONE _ HI _ eq_refl) as [p [-> [Ru1 Ru2]]]. cbn [fst snd] in *. apply okpair in H as [<- _]. cbn [fst snd]. split; [exact Ru1|].
    intros y V. inversion V; subst; same_node; try (intuition discriminate). destruct (NF _ HI) as [c [Hc Ec]].
    rewrite Ec, clog2_pow by exact Hc. apply fits_mean; auto; [congruence|]. eapply Forall_impl; [|eassumption]. auto.
  - (* Add *) destruct SF as [ts HI]. rewrite HI in H. cbn [rbind fst snd] in H. destruct (kifs_max ts) as [m|] eqn:EM; cbn [rbind] in H; [|discriminate].
    destruct (MAX _ _ HI EM) as [Sm [Lm Fm]]. destruct m as [[k i] f]. cbn [fst snd] in *. apply okpair in H as [<- _]. cbn [fst snd]. split; [exact Sm|].
    intros y V. inversion V; subst; same_node; try (intuition discriminate).
    match goal with A : Forall2 (value net s) _ _ |- _ => rename A into FV end. pose proof (F2_length _ _ _ FV) as Lx.
    assert (N1 : 1 <= Z.of_nat (List.length ts)) by (destruct ts; [discriminate|cbn; lia]). destruct (clog2_count _ N1) as [C0 C1].
    apply fits_sum; auto; [lia|]. clear -FV Fm.
    induction FV as [|p x l xs V FV IHF]; constructor; [apply (Fm p); [left; reflexivity|exact V]|]. apply IHF. intros p' y' Hp. apply Fm. right; exact Hp.
  - (* Subtract *) destruct SF as [ts HI]. rewrite HI in H. cbn [rbind fst snd] in H. destruct (kifs_max ts) as [m|] eqn:EM; cbn [rbind] in H; [|discriminate].
    destruct (MAX _ _ HI EM) as [Sm [Lm Fm]]. destruct m as [[k i] f]. cbn [fst snd] in *. apply okpair in H as [<- _]. cbn [fst snd]. split; [exact Sm|].
    intros z V. inversion V; subst; same_node; try (intuition discriminate).
    pose proof (NF _ HI) as K1. cbn [node_fine fst snd] in K1. subst k. cbn in Lm. rewrite Lm. change (clog2 (qz (Z.of_nat 2))) with 1.
    assert (FX : fits 1 i f x) by (eapply Fm; [left; reflexivity|assumption]). assert (FY : fits 1 i f y) by (eapply Fm; [right; left; reflexivity|assumption]).
    destruct FX as [G1 [A1 B1]], FY as [G2 [A2 B2]]. split; [unfold Qcminus; apply grid_add; [exact G1|apply grid_opp, G2]|].
    cbn [fst snd]. change (qz 1) with 1%Qc in *. rewrite pow2_add. change (pow2 1) with (1 + 1)%Qc. replace (1 * pow2 i)%Qc with (pow2 i) in * by ring. replace (1 * (pow2 i * (1 + 1)))%Qc with (pow2 i + pow2 i)%Qc by ring. replace (pow2 i * (1 + 1))%Qc with (pow2 i + pow2 i)%Qc by ring. split; qlra.
  - (* Dot *) destruct SF as [ts HI]. destruct (NF _ HI).
  - (* Concatenate *) destruct SF as [ts HI]. rewrite HI in H. cbn [rbind fst snd] in H. destruct (kifs_max ts) as [m|] eqn:EM; cbn [rbind] in H; [|discriminate].
    destruct (MAX _ _ HI EM) as [Sm [Lm Fm]]. apply okpair in H as [<- _]. split; [exact Sm|].
    intros z V. inversion V; subst; same_node; try (intuition discriminate). eapply Fm; eauto.
  - (* Dense, Conv *) destruct SF as [ts HI]. rewrite HI in H. cbn [rbind fst snd] in H. destruct ts as [|[[k i] f] [|? ?]]; try discriminate.
    destruct (ONE _ HI _ eq_refl) as [p [-> [Ru1 Ru2]]]. cbn [fst snd] in *. apply okpair in H as [E _].
    assert (K' : fst (fst t) = 0 \/ fst (fst t) = 1).
    { subst t. unfold kernel_produced. destruct (get_arr_container kernel) as [[wk wi] wf]. cbn [fst]. match goal with |- context [if ?x then _ else _] => destruct x end; auto. }
    split; [exact K'|]. intros y V. inversion V; subst; same_node; try (intuition discriminate).
    eapply kernel_sound; [exact Ru1|reflexivity|apply NF, HI|assumption| |assumption|assumption]. eapply Forall_impl; [|eassumption]. intros x [Vx| ->]; [apply Ru2, Vx|apply fits_0, Ru1].
  - (* Reshape *) destruct SF as [ts HI]. rewrite HI in H. cbn [rbind fst snd] in H. destruct ts as [|u [|? ?]]; try discriminate.
    destruct (ONE _ HI _ eq_refl) as [p [-> [Ru1 Ru2]]]. apply okpair in H as [<- _]. split; [exact Ru1|].
    intros y V. inversion V; subst; same_node; try (intuition discriminate). apply Ru2. assumption.
  - (* MaxPool, Permute *) destruct SF as [ts HI]. rewrite HI in H. cbn [rbind fst snd] in H. destruct ts as [|u [|? ?]]; try discriminate.
    destruct (ONE _ HI _ eq_refl) as [p [-> [Ru1 Ru2]]]. apply okpair in H as [<- _]. split; [exact Ru1|].
    intros y V. inversion V; subst; same_node; try (intuition discriminate). apply Ru2. assumption.
  - (* UnaryLUT *) apply okpair in H as [<- _]. destruct kf as [[k i] f]. destruct (AL _ _ _ _ _ EN) as [Sk Pk]. split; [exact Sk|].
    intros y V. inversion V; subst; same_node; try (intuition discriminate). cbn [fst snd].
    match goal with A : gfixed_quantizer _ _ _ _ _ _ = Ok _ |- _ => apply gfixed_fits in A; [|assumption|destruct Sk; lia]; rename A into Fy end.
    eapply fits_mono; [exact Sk|exact Sk| | | |exact Fy]; lia.
  - (* unknown *) apply okpair in H as [<- _]. split; [right; reflexivity|]. intros y V. inversion V; subst; same_node; try assumption; intuition discriminate.
Qed.
