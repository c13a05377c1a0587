(** Moving statistics (C66). *)
From Coq Require Import ZArith QArith Qcanon List Bool Lia.
From Verif Require Import Base.Num Base.NumFacts Base.Tensor Model.Quantizer Model.Layers Model.BatchNorm Spec.Norm Spec.Moving Proofs.TensorP Proofs.CallP Proofs.BatchNormP Proofs.Float32P.
Import ListNotations.
Local Open Scope nat_scope.

Definition ema (mom : Qc) (old : Qc) (ms : list Qc) : Qc := fold_left (fun m x => mom * m + (qz 1 - mom) * x)%Qc ms old.

Lemma sum_map_scale {A} (c : Qc) (f : A -> Qc) l : fold_right Qcplus (qz 0) (map (fun k => c * f k)%Qc l) = (c * fold_right Qcplus (qz 0) (map f l))%Qc.
Proof. induction l as [|a l IH]; cbn [map fold_right]; [rewrite qz_0; ring|rewrite IH; ring]. Qed.
Lemma weighted_cons mom old m ms : weighted mom old (m :: ms) = weighted mom (mom * old + (qz 1 - mom) * m)%Qc ms.
Proof.
  unfold weighted. cbn [length seq map fold_right]. rewrite <- seq_shift, map_map. rewrite Nat.sub_0_r. cbn [nth].
  replace (S (length ms) - 1) with (length ms) by lia. change (Qcpower mom (S (length ms))) with (mom * Qcpower mom (length ms))%Qc.
  assert (E : map (fun x => (Qcpower mom (length ms - S x) * nth x ms (qz 0))%Qc) (seq 0 (length ms)) =
              map (fun k => (Qcpower mom (length ms - 1 - k) * nth k ms (qz 0))%Qc) (seq 0 (length ms))).
  { apply map_ext. intros k. do 2 f_equal. lia. }
  rewrite E. ring.
Qed.
Lemma ema_weighted mom ms : forall old, ema mom old ms = weighted mom old ms.
Proof.
  induction ms as [|m ms IH]; intros old.
  - unfold ema, weighted. cbn. rewrite qz_0. ring.
  - rewrite weighted_cons, <- IH. reflexivity.
Qed.

Lemma bn_train_stats rsqrt pw ln2 l w xs r nk nb na ys l' c :
  (if b_scale l then w = b_kernel l else exists kq, call pw ln2 (b_kq l) (b_kernel l) true false nk = Ok (w, kq)) ->
  bn_train rsqrt pw ln2 l xs r nk nb na = Ok (ys, l') -> c < n_chan l ->
  b_momentum l' = b_momentum l /\ b_center l' = b_center l /\ b_scale l' = b_scale l /\ n_chan l' = n_chan l /\
  (b_center l = true -> forall m, step_mean c (l, w, xs) m -> nth c (b_mean l') (qz 0) = (b_momentum l * nth c (b_mean l) (qz 0) + (qz 1 - b_momentum l) * m)%Qc) /\
  (b_scale l = true -> forall v, step_var c (l, w, xs) v -> nth c (b_var l') (qz 0) = (b_momentum l * nth c (b_var l) (qz 0) + (qz 1 - b_momentum l) * v)%Qc).
Proof.
  intros Hw E Hc. unfold bn_train in E.
  apply rbind_ok in E. destruct E as [[w1 kq1] [E1 E]]. cbn [fst snd] in E.
  assert (w1 = w) as ->.
  { destruct (b_scale l); [congruence|]. destruct Hw as [kq Hw]. rewrite Hw in E1. congruence. }
  clear E1 Hw. cbv zeta in E.
  apply rbind_ok in E. destruct E as [[w2 kq2] [_ E]]. apply rbind_ok in E. destruct E as [z2 [_ E]]. apply rbind_ok in E. destruct E as [[y q] [_ E]].
  assert (NC : forall f : nat -> Qc, nth c (map f (chans l)) (qz 0) = f c).
  { intros f. unfold chans. rewrite (nth_indep _ _ (f 0)) by (rewrite map_length, seq_length; exact Hc). rewrite map_nth, seq_nth by exact Hc. reflexivity. }
  match type of E with Ok (_, ?l0) = Ok (_, _) => assert (EL : l' = l0) by congruence end. clear E. subst l'. cbn [b_momentum b_center b_scale b_mean b_var].
  do 3 (split; [reflexivity|]). split; [reflexivity|]. split.
  - intros -> m [NE [m0 [Hm ->]]]. rewrite NC. unfold moving. rewrite chan_vals_spec.
    change (channel_values (b_loc l) (b_out l) (map (fun x => linop (b_ts l) (data w) (hd [] x)) xs) c) with (step_values (l, w, xs) c).
    rewrite (mean_list_spec _ m0 NE Hm). reflexivity.
  - intros SC v [NE Hv]. rewrite SC. rewrite NC. unfold moving. rewrite chan_vals_spec.
    change (channel_values (b_loc l) (b_out l) (map (fun x => linop (b_ts l) (data w) (hd [] x)) xs) c) with (step_values (l, w, xs) c).
    rewrite (var_list_spec _ v NE Hv). reflexivity.
Qed.

Lemma run_stats rsqrt pw ln2 l steps l' : training_run rsqrt pw ln2 l steps l' -> forall c, c < n_chan l ->
  (b_center l = true -> forall ms, Forall2 (step_mean c) steps ms -> nth c (b_mean l') (qz 0) = ema (b_momentum l) (nth c (b_mean l) (qz 0)) ms) /\
  (b_scale l = true -> forall vs, Forall2 (step_var c) steps vs -> nth c (b_var l') (qz 0) = ema (b_momentum l) (nth c (b_var l) (qz 0)) vs).
Proof.
  induction 1 as [l l' [E1 [E2 _]]|l l1 w xs r nk nb na ys l2 steps l3 [U1 [U2 [U3 [U4 [U5 U6]]]]] Hw HT HR IH]; intros c Hc.
  - split; intros _ ms H; inversion H; subst; cbn; congruence.
  - rewrite <- U6 in Hc. destruct (bn_train_stats _ _ _ _ _ _ _ _ _ _ _ _ c Hw HT Hc) as [T1 [T2 [T3 [T4 [TM TV]]]]].
    rewrite <- T4 in Hc. destruct (IH c Hc) as [IM IV]. split; intros HB ms H; inversion H as [|s m ? ms' Hm Hms]; subst.
    + rewrite (IM ltac:(congruence) ms' Hms), (TM ltac:(congruence) m Hm). rewrite T1, U1, U3. reflexivity.
    + rewrite (IV ltac:(congruence) ms' Hms), (TV ltac:(congruence) m Hm). rewrite T1, U2, U3. reflexivity.
Qed.

Lemma ema_same mom m n old : ema mom old (repeat m n) = (m + Qcpower mom n * (old - m))%Qc.
Proof.
  revert old. induction n as [|n IH]; intros old; cbn [repeat].
  - unfold ema. cbn. ring.
  - change (ema mom old (m :: repeat m n)) with (ema mom (mom * old + (qz 1 - mom) * m)%Qc (repeat m n)). rewrite IH.
    change (Qcpower mom (S n)) with (mom * Qcpower mom n)%Qc. rewrite qz1. ring.
Qed.
Lemma ema_bounds mom lo hi ms : (qz 0 <= mom)%Qc -> (mom <= qz 1)%Qc -> Forall (fun m => lo <= m /\ m <= hi)%Qc ms ->
  forall old, (lo <= old)%Qc -> (old <= hi)%Qc -> (lo <= ema mom old ms)%Qc /\ (ema mom old ms <= hi)%Qc.
Proof.
  intros M0 M1. induction 1 as [|m ms [L U] _ IH]; intros old Lo Hi; [split; assumption|].
  change (ema mom old (m :: ms)) with (ema mom (mom * old + (qz 1 - mom) * m)%Qc ms).
  assert (A : (lo <= mom * old + (qz 1 - mom) * m)%Qc).
  { pose proof (qmul_le_r lo old mom M0 Lo). pose proof (qmul_le_r lo m (qz 1 - mom)%Qc ltac:(qlra) L).
    replace lo with (lo * mom + lo * (qz 1 - mom))%Qc by (rewrite qz1; ring). replace (mom * old + (qz 1 - mom) * m)%Qc with (old * mom + m * (qz 1 - mom))%Qc by ring. qlra. }
  assert (B : (mom * old + (qz 1 - mom) * m <= hi)%Qc).
  { pose proof (qmul_le_r old hi mom M0 Hi). pose proof (qmul_le_r m hi (qz 1 - mom)%Qc ltac:(qlra) U).
    replace hi with (hi * mom + hi * (qz 1 - mom))%Qc by (rewrite qz1; ring). replace (mom * old + (qz 1 - mom) * m)%Qc with (old * mom + m * (qz 1 - mom))%Qc by ring. qlra. }
  apply IH; assumption.
Qed.
Lemma square_nonneg (t : Qc) : (qz 0 <= t * t)%Qc.
Proof.
  rewrite qz_0. destruct (Qclt_le_dec t 0) as [C|C].
  - replace (t * t)%Qc with ((- t) * (- t))%Qc by ring. replace 0%Qc with (0 * - t)%Qc at 1 by ring. apply Qcmult_le_compat_r; qlra.
  - replace 0%Qc with (0 * t)%Qc at 1 by ring. apply Qcmult_le_compat_r; assumption.
Qed.
Lemma var_nonneg l v : l <> [] -> is_var l v -> (qz 0 <= v)%Qc.
Proof.
  intros NE [m [_ V]]. unfold is_mean in V.
  assert (S : forall l, (qz 0 <= fold_right Qcplus (qz 0) (map (fun x => (x - m) * (x - m))%Qc l))%Qc).
  { induction l0 as [|a l0 IH]; cbn [map fold_right]; [apply Qcle_refl|]. pose proof (square_nonneg (a - m)%Qc) as H. set (t := ((a - m) * (a - m))%Qc) in *. clearbody t. qlra. }
  specialize (S l). rewrite <- V in S. rewrite map_length in S.
  assert (P : (qz 0 < qz (Z.of_nat (length l)))%Qc) by (apply qz_lt; destruct l; [congruence|cbn [length]; lia]).
  destruct (Qclt_le_dec v (qz 0)) as [C|C]; [|exact C]. exfalso. qnra.
Qed.

Lemma mean_exists l : l <> [] -> exists m, is_mean l m.
Proof.
  intros NE. exists (fold_right Qcplus (qz 0) l / qz (Z.of_nat (length l)))%Qc. unfold is_mean. field.
  intros C. change 0%Qc with (qz 0) in C. apply qz_inj in C. destruct l; [congruence|cbn in C; lia].
Qed.
Lemma var_exists l : l <> [] -> exists v, is_var l v.
Proof.
  intros NE. destruct (mean_exists l NE) as [m Hm].
  destruct (mean_exists (map (fun x => (x - m) * (x - m))%Qc l)) as [v Hv]; [destruct l; [congruence|discriminate]|]. exists v, m. split; assumption.
Qed.

(** Powers of a number in [0, 1) become small. *)
Lemma power_bernoulli mom n : (qz 0 <= mom)%Qc -> (mom <= qz 1)%Qc ->
  (qz 0 <= Qcpower mom n)%Qc /\ (Qcpower mom n * (qz 1 + qz (Z.of_nat n) * (qz 1 - mom)) <= qz 1)%Qc.
Proof.
  intros M0 M1. induction n as [|n [P IH]].
  - cbn [Qcpower]. split; [vm_compute; discriminate|]. change (Z.of_nat 0) with 0%Z. rewrite qz_0, qz1. change (Q2Qc 1) with 1%Qc. replace (1 * (1 + 0 * (1 - mom)))%Qc with 1%Qc by ring. apply Qcle_refl.
  - change (Qcpower mom (S n)) with (mom * Qcpower mom n)%Qc. set (p := Qcpower mom n) in *. clearbody p. split.
    + pose proof (qmul_le_r (qz 0) p mom M0 P) as H. replace (qz 0 * mom)%Qc with (qz 0) in H by (rewrite qz_0; ring). rewrite (Qcmult_comm mom p). exact H.
    + replace (Z.of_nat (S n)) with (Z.of_nat n + 1)%Z by lia. rewrite qz_add. set (k := qz (Z.of_nat n)) in *.
      assert (K : (qz 0 <= k)%Qc) by (apply qz_le; lia). clearbody k.
      set (d := (qz 1 - mom)%Qc) in *. assert (D : (qz 0 <= d)%Qc) by (unfold d; qlra).
      replace (mom * p * (qz 1 + (k + qz 1) * d))%Qc with (p * (qz 1 + k * d) - p * ((k + qz 1) * (d * d)))%Qc by (unfold d; rewrite qz1; change (Q2Qc 1) with 1%Qc; ring).
      assert (Q : (qz 0 <= p * ((k + qz 1) * (d * d)))%Qc).
      { pose proof (square_nonneg d) as S2. set (t := (d * d)%Qc) in *. clearbody t.
        pose proof (qmul_le_r (qz 0) (k + qz 1)%Qc t S2 ltac:(qlra)) as H1. replace (qz 0 * t)%Qc with (qz 0) in H1 by (rewrite qz_0; ring).
        pose proof (qmul_le_r (qz 0) p _ H1 P) as H2. replace (qz 0 * ((k + qz 1) * t))%Qc with (qz 0) in H2 by (rewrite qz_0; ring). exact H2. }
      set (t1 := (p * ((k + qz 1) * (d * d)))%Qc) in *. set (t2 := (p * (qz 1 + k * d))%Qc) in *. clearbody t1 t2. qlra.
Qed.
Lemma qmul_pos a b : (qz 0 < a -> qz 0 < b -> qz 0 < a * b)%Qc.
Proof. intros A B. pose proof (qmul_lt_r (qz 0) a b B A) as H. replace (qz 0 * b)%Qc with (qz 0) in H by (rewrite qz_0; ring). exact H. Qed.
Lemma power_small mom a eps : (qz 0 <= mom)%Qc -> (mom < qz 1)%Qc -> (qz 0 <= a)%Qc -> (qz 0 < eps)%Qc ->
  exists N, forall n, N <= n -> (Qcpower mom n * a < eps)%Qc.
Proof.
  intros M0 M1 A E. set (d := (qz 1 - mom)%Qc). assert (D : (qz 0 < d)%Qc) by (unfold d; qlra).
  assert (ED : (qz 0 < eps * d)%Qc) by (apply qmul_pos; assumption).
  exists (Z.to_nat (qfloor (a / (eps * d)) + 1)). intros n Hn.
  destruct (power_bernoulli mom n M0 ltac:(qlra)) as [P B]. fold d in B. set (p := Qcpower mom n) in *. clearbody p.
  assert (NB : (a < qz (Z.of_nat n) * (eps * d))%Qc).
  { pose proof (qfloor_lt (a / (eps * d))) as F. assert (NZ : (eps * d)%Qc <> 0%Qc) by (intros C; rewrite C in ED; rewrite qz_0 in ED; revert ED; apply Qcle_not_lt, Qcle_refl).
    assert (EA : (a / (eps * d) * (eps * d))%Qc = a) by (set (e := (eps * d)%Qc) in *; clearbody e; field; exact NZ). rewrite <- EA at 1.
    apply qmul_lt_r; [exact ED|]. apply (Qclt_le_trans _ _ _ F). rewrite <- qz_add. apply qz_le. lia. }
  destruct (Qclt_le_dec (p * a) eps) as [G|G]; [exact G|exfalso].
  (* p * a >= eps and p * (1 + n d) <= 1, so eps * p * (1 + n d) <= eps <= p * a < p * n eps d unless p = 0 *)
  assert (PP : (qz 0 < p)%Qc).
  { destruct (Qclt_le_dec (qz 0) p) as [H|H]; [exact H|]. assert (p = qz 0) by (apply Qcle_antisym; assumption). subst p. replace (qz 0 * a)%Qc with (qz 0) in G by (rewrite qz_0; ring). exfalso. qlra. }
  set (k := qz (Z.of_nat n)) in *. clearbody k.
  pose proof (qmul_lt_r _ _ p PP NB) as H1. pose proof (qmul_le_r _ _ eps ltac:(qlra) B) as H2.
  replace (qz 1 * eps)%Qc with eps in H2 by (rewrite qz1; change (Q2Qc 1) with 1%Qc; ring).
  replace (p * (qz 1 + k * d) * eps)%Qc with (p * eps + k * (eps * d) * p)%Qc in H2 by (rewrite qz1; change (Q2Qc 1) with 1%Qc; ring).
  rewrite (Qcmult_comm p a) in G. assert (PE : (qz 0 < p * eps)%Qc) by (apply qmul_pos; assumption).
  set (t1 := (p * eps)%Qc) in *. set (t2 := (k * (eps * d) * p)%Qc) in *. set (t3 := (a * p)%Qc) in *. clearbody t1 t2 t3. qlra.
Qed.
