(** Calculus of slopes, and of dual numbers as values with slopes. *)
From Coq Require Import ZArith QArith Qcanon List Bool Lia.
From Verif Require Import Base.Num Base.NumFacts Base.Tensor Model.Quantizer Model.BopsGrad Spec.TrainGrad.
Import ListNotations.
Local Open Scope Qc_scope.

Lemma abs_mul a b : qabs (a * b) = qabs a * qabs b.
Proof.
  destruct (qabs_spec a) as [[A ->]|[A ->]], (qabs_spec b) as [[B ->]|[B ->]], (qabs_spec (a * b)) as [[C ->]|[C ->]]; try ring; apply Qcle_antisym; qnra.
Qed.
Lemma abs_tri a b : qabs (a + b) <= qabs a + qabs b.
Proof. destruct (qabs_spec a) as [[A ->]|[A ->]], (qabs_spec b) as [[B ->]|[B ->]], (qabs_spec (a + b)) as [[C ->]|[C ->]]; qlra. Qed.
Lemma abs_pos a : qz 0 <= qabs a.
Proof. apply qabs_nonneg. Qed.
Lemma qmin_pos a b : qz 0 < a -> qz 0 < b -> qz 0 < qmin a b.
Proof. intros. unfold qmin. qcases; assumption. Qed.
Lemma le_min x a b : x <= qmin a b -> x <= a /\ x <= b.
Proof. unfold qmin. qcases; intros; qlra. Qed.

Lemma slope_ext g h d : (forall t, g t = h t) -> slope g d -> slope h d.
Proof. intros E S eps He. destruct (S eps He) as [del [Hd HS]]. exists del. split; [exact Hd|]. intros t Ht. rewrite <- !E. apply HS, Ht. Qed.
Lemma slope_const c : slope (fun _ => c) (qz 0).
Proof.
  intros eps He. exists (qz 1). split; [reflexivity|]. intros t _. replace (c - c - qz 0 * t) with (qz 0) by (change (qz 0) with 0; ring).
  change (qabs (qz 0)) with (qz 0). pose proof (abs_pos t). qnra.
Qed.
Lemma slope_line d : slope (fun t => t * d) d.
Proof.
  intros eps He. exists (qz 1). split; [reflexivity|]. intros t _. replace (t * d - qz 0 * d - d * t) with (qz 0) by (change (qz 0) with 0; ring).
  change (qabs (qz 0)) with (qz 0). pose proof (abs_pos t). qnra.
Qed.
Lemma slope_add g h a b : slope g a -> slope h b -> slope (fun t => g t + h t) (a + b).
Proof.
  intros G H eps He. assert (H2 : qz 0 < eps / qz 2) by (unfold Qcdiv; replace (/ qz 2) with qhalf by (apply Qc_is_canon; reflexivity); assert (qz 0 < qhalf) by reflexivity; qnra).
  destruct (G _ H2) as [d1 [D1 G1]]. destruct (H _ H2) as [d2 [D2 H1]]. exists (qmin d1 d2). split; [apply qmin_pos; assumption|].
  intros t Ht. destruct (le_min _ _ _ Ht) as [T1 T2].
  specialize (G1 t T1). specialize (H1 t T2).
  replace (g t + h t - (g (qz 0) + h (qz 0)) - (a + b) * t) with ((g t - g (qz 0) - a * t) + (h t - h (qz 0) - b * t)) by ring.
  eapply Qcle_trans; [apply abs_tri|].
  replace (eps * qabs t) with (eps / qz 2 * qabs t + eps / qz 2 * qabs t); [apply Qcplus_le_compat; assumption|].
  unfold Qcdiv. replace (/ qz 2) with qhalf by (apply Qc_is_canon; reflexivity). replace (eps * qhalf * qabs t + eps * qhalf * qabs t) with (eps * qabs t * (qhalf + qhalf)) by ring. replace (qhalf + qhalf) with 1 by (apply Qc_is_canon; reflexivity). ring.
Qed.
Lemma slope_scale c g a : slope g a -> slope (fun t => c * g t) (c * a).
Proof.
  intros G eps He. assert (K : qz 0 < qabs c + qz 1) by (pose proof (abs_pos c); qlra).
  assert (H2 : qz 0 < eps / (qabs c + qz 1)).
  { apply Qcnot_le_lt. intros B. assert (E : eps / (qabs c + qz 1) * (qabs c + qz 1) = eps) by (field; intros Z; rewrite Z in K; discriminate). qnra. }
  destruct (G _ H2) as [d1 [D1 G1]]. exists d1. split; [exact D1|]. intros t Ht. specialize (G1 t Ht).
  replace (c * g t - c * g (qz 0) - c * a * t) with (c * (g t - g (qz 0) - a * t)) by ring. rewrite abs_mul.
  assert (E : eps / (qabs c + qz 1) * (qabs c + qz 1) = eps) by (field; intros Z; rewrite Z in K; discriminate).
  pose proof (abs_pos c). pose proof (abs_pos t). pose proof (abs_pos (g t - g (qz 0) - a * t)).
  remember (eps / (qabs c + qz 1)) as e'. remember (qabs (g t - g (qz 0) - a * t)) as r. rewrite <- E.
  assert (A1 : qabs c * r <= qabs c * (e' * qabs t)) by (rewrite !(Qcmult_comm (qabs c)); apply Qcmult_le_compat_r; assumption).
  assert (A2 : qz 0 <= e' * qabs t) by (clear -H2 H0; qnra). replace (e' * (qabs c + qz 1) * qabs t) with (qabs c * (e' * qabs t) + e' * qabs t) by (change (qz 1) with 1; ring). qlra.
Qed.
Lemma slope_sub g h a b : slope g a -> slope h b -> slope (fun t => g t - h t) (a - b).
Proof.
  intros G H. apply slope_ext with (fun t => g t + (- (1)) * h t); [intros t; ring|].
  replace (a - b) with (a + (- (1)) * b) by ring. apply slope_add; [exact G|apply slope_scale, H].
Qed.
(** The product of two small quantities has slope 0. *)
Lemma slope_small g h a b : slope g a -> slope h b -> g (qz 0) = qz 0 -> h (qz 0) = qz 0 -> slope (fun t => g t * h t) (qz 0).
Proof.
  intros G H G0 H0 eps He. destruct (G (qz 1) eq_refl) as [d1 [D1 G1]]. destruct (H (qz 1) eq_refl) as [d2 [D2 H1]].
  set (K := (qabs a + qz 1) * (qabs b + qz 1)).
  assert (KP : qz 0 < K) by (unfold K; pose proof (abs_pos a); pose proof (abs_pos b); qnra).
  assert (EK : eps / K * K = eps) by (field; intros Z; rewrite Z in KP; discriminate).
  assert (H2 : qz 0 < eps / K) by (apply Qcnot_le_lt; intros B; qnra).
  exists (qmin (qmin d1 d2) (eps / K)). split; [apply qmin_pos; [apply qmin_pos|]; assumption|].
  intros t Ht. destruct (le_min _ _ _ Ht) as [T12 T3]. destruct (le_min _ _ _ T12) as [T1 T2].
  specialize (G1 t T1). specialize (H1 t T2). rewrite G0 in *. rewrite H0 in *.
  replace (g t * h t - qz 0 * qz 0 - qz 0 * t) with (g t * h t) by (change (qz 0) with 0; ring). rewrite abs_mul.
  assert (B1 : qabs (g t) <= (qabs a + qz 1) * qabs t).
  { replace (g t) with ((g t - qz 0 - a * t) + a * t) at 1 by (change (qz 0) with 0; ring). eapply Qcle_trans; [apply abs_tri|]. rewrite abs_mul. replace ((qabs a + qz 1) * qabs t) with (qz 1 * qabs t + qabs a * qabs t) by ring. apply Qcplus_le_compat; [exact G1|apply Qcle_refl]. }
  assert (B2 : qabs (h t) <= (qabs b + qz 1) * qabs t).
  { replace (h t) with ((h t - qz 0 - b * t) + b * t) at 1 by (change (qz 0) with 0; ring). eapply Qcle_trans; [apply abs_tri|]. rewrite abs_mul. replace ((qabs b + qz 1) * qabs t) with (qz 1 * qabs t + qabs b * qabs t) by ring. apply Qcplus_le_compat; [exact H1|apply Qcle_refl]. }
  pose proof (abs_pos (g t)). pose proof (abs_pos (h t)). pose proof (abs_pos t).
  assert (P : qabs (g t) * qabs (h t) <= ((qabs a + qz 1) * qabs t) * ((qabs b + qz 1) * qabs t)).
  { apply Qcle_trans with (((qabs a + qz 1) * qabs t) * qabs (h t)).
    - apply Qcmult_le_compat_r; assumption.
    - rewrite !(Qcmult_comm ((qabs a + qz 1) * qabs t)). apply Qcmult_le_compat_r; [assumption|]. pose proof (abs_pos a). qnra. }
  eapply Qcle_trans; [exact P|]. replace ((qabs a + qz 1) * qabs t * ((qabs b + qz 1) * qabs t)) with (K * qabs t * qabs t) by (unfold K; ring).
  apply Qcmult_le_compat_r; [|assumption]. rewrite <- EK at 1. rewrite (Qcmult_comm _ K). rewrite !(Qcmult_comm K). apply Qcmult_le_compat_r; [exact T3|]. apply Qclt_le_weak, KP.
Qed.
Lemma slope_mul g h a b : slope g a -> slope h b -> slope (fun t => g t * h t) (a * h (qz 0) + g (qz 0) * b).
Proof.
  intros G H.
  apply slope_ext with (fun t => ((g t - g (qz 0)) * (h t - h (qz 0)) + (h (qz 0) * g t + (g (qz 0) * h t - g (qz 0) * h (qz 0))))); [intros t; ring|].
  replace (a * h (qz 0) + g (qz 0) * b) with (qz 0 + (h (qz 0) * a + (g (qz 0) * b - qz 0))) by (change (qz 0) with 0; ring).
  apply slope_add; [|apply slope_add; [apply slope_scale, G|apply slope_sub; [apply slope_scale, H|apply slope_const]]].
  apply slope_small with (a - qz 0) (b - qz 0); [apply slope_sub; [exact G|apply slope_const]|apply slope_sub; [exact H|apply slope_const]|change (qz 0) with 0; ring|change (qz 0) with 0; ring].
Qed.
(** A function has one slope only. *)
Lemma slope_unique g a b : slope g a -> slope g b -> a = b.
Proof.
  intros A B. pose proof (slope_sub g g a b A B) as S.
  assert (Z : slope (fun _ => qz 0) (a - b)) by (eapply slope_ext; [|exact S]; intros t; cbv beta; change (qz 0) with 0; ring).
  destruct (Qc_eq_dec a b) as [E|N]; [exact E|exfalso].
  assert (P : qz 0 < qabs (a - b)).
  { apply Qcnot_le_lt. intros C. apply N. revert C. destruct (qabs_spec (a - b)) as [[A1 ->]|[A1 ->]]; intros; qlra. }
  assert (P2 : qz 0 < qabs (a - b) * qhalf) by (assert (qz 0 < qhalf) by reflexivity; qnra).
  destruct (Z _ P2) as [del [D H]]. assert (AD : qabs del = del) by (destruct (qabs_spec del) as [[A1 ->]|[A1 ->]]; qlra).
  specialize (H del). rewrite AD in H. specialize (H (Qcle_refl _)).
  replace (qz 0 - qz 0 - (a - b) * del) with (- (1) * (a - b) * del) in H by (change (qz 0) with 0; ring). rewrite !abs_mul, AD in H.
  change (qabs (- (1))) with 1 in H. assert (HH : qhalf + qhalf = 1) by (apply Qc_is_canon; reflexivity). qnra.
Qed.

(** ** Dual numbers *)
Definition follows (d : dual) (g : Qc -> Qc) : Prop := g (qz 0) = fst d /\ slope g (snd d).
Lemma fo_ext d g h : (forall t, g t = h t) -> follows d g -> follows d h.
Proof. intros E [V S]. split; [rewrite <- E; exact V|exact (slope_ext _ _ _ E S)]. Qed.
Lemma fo_const c : follows (d_const c) (fun _ => c).
Proof. split; [reflexivity|apply slope_const]. Qed.
Lemma fo_add a b g h : follows a g -> follows b h -> follows (d_add a b) (fun t => g t + h t).
Proof. intros [V S] [V' S']. split; [cbn; congruence|apply slope_add; assumption]. Qed.
Lemma fo_sub a b g h : follows a g -> follows b h -> follows (d_sub a b) (fun t => g t - h t).
Proof. intros [V S] [V' S']. split; [cbn; congruence|apply slope_sub; assumption]. Qed.
Lemma fo_mul a b g h : follows a g -> follows b h -> follows (d_mul a b) (fun t => g t * h t).
Proof. intros [V S] [V' S']. split; [cbn; congruence|]. cbn [d_mul snd]. rewrite <- V, <- V'. apply slope_mul; assumption. Qed.
Lemma fo_div a c g : follows a g -> follows (d_div a (d_const c)) (fun t => g t / c).
Proof.
  intros [V S]. split; [cbn; rewrite V; reflexivity|]. cbn [d_div d_const fst snd].
  apply slope_ext with (fun t => / c * g t); [intros t; unfold Qcdiv; ring|].
  replace ((snd a * c - fst a * qz 0) / (c * c)) with (/ c * snd a); [apply slope_scale, S|].
  change (qz 0) with 0. destruct (Qc_eq_dec c 0) as [->|N]; [change (/ 0) with 0; unfold Qcdiv; change (0 * 0) with 0; change (/ 0) with 0; ring|field; exact N].
Qed.
Lemma fo_line d : follows d (fun t => fst d + t * snd d).
Proof.
  split; [change (qz 0) with 0; ring|]. apply slope_ext with (fun t => fst d + t * snd d); [reflexivity|].
  replace (snd d) with (qz 0 + snd d) at 1 by (change (qz 0) with 0; ring). apply slope_add; [apply slope_const|apply slope_line].
Qed.
Lemma fo_sum {A} (l : list A) (d : A -> dual) (g : A -> Qc -> Qc) : (forall x, In x l -> follows (d x) (g x)) ->
  follows (dsum (map d l)) (fun t => qsum (map (fun x => g x t) l)).
Proof.
  induction l as [|x l IH]; intros H; [apply fo_const|]. cbn [map dsum qsum fold_right].
  apply (fo_add (d x) (dsum (map d l)) (g x) (fun t => qsum (map (fun x => g x t) l))); [apply H; left; reflexivity|]. apply IH. intros y Hy. apply H. right. exact Hy.
Qed.

(** ** Quotients *)
(** A function that is at most linear near 0. *)
Definition small (g : Qc -> Qc) : Prop := exists K del, qz 0 < K /\ qz 0 < del /\ forall t, qabs t <= del -> qabs (g t) <= K * qabs t.
Lemma small_slope g a : slope g a -> small (fun t => g t - g (qz 0)).
Proof.
  intros G. destruct (G (qz 1) eq_refl) as [d [D G1]]. exists (qabs a + qz 1), d. split; [pose proof (abs_pos a); qlra|]. split; [exact D|]. intros t Ht. specialize (G1 t Ht).
  replace (g t - g (qz 0)) with ((g t - g (qz 0) - a * t) + a * t) by ring. eapply Qcle_trans; [apply abs_tri|]. rewrite abs_mul.
  replace ((qabs a + qz 1) * qabs t) with (qz 1 * qabs t + qabs a * qabs t) by ring. apply Qcplus_le_compat; [exact G1|apply Qcle_refl].
Qed.
Lemma small_product g h : small g -> small h -> g (qz 0) = qz 0 -> slope (fun t => g t * h t) (qz 0).
Proof.
  intros (K1 & d1 & P1 & D1 & G) (K2 & d2 & P2 & D2 & H) G0 eps He. set (K := K1 * K2). assert (KP : qz 0 < K) by (unfold K; qnra).
  assert (EK : eps / K * K = eps) by (field; intros Z; rewrite Z in KP; discriminate).
  assert (H2 : qz 0 < eps / K) by (apply Qcnot_le_lt; intros B; qnra).
  exists (qmin (qmin d1 d2) (eps / K)). split; [apply qmin_pos; [apply qmin_pos|]; assumption|].
  intros t Ht. destruct (le_min _ _ _ Ht) as [T12 T3]. destruct (le_min _ _ _ T12) as [T1 T2]. specialize (G t T1). specialize (H t T2). rewrite G0.
  replace (g t * h t - qz 0 * h (qz 0) - qz 0 * t) with (g t * h t) by (change (qz 0) with 0; ring). rewrite abs_mul.
  pose proof (abs_pos (g t)). pose proof (abs_pos (h t)). pose proof (abs_pos t).
  assert (P : qabs (g t) * qabs (h t) <= (K1 * qabs t) * (K2 * qabs t)).
  { apply Qcle_trans with ((K1 * qabs t) * qabs (h t)); [apply Qcmult_le_compat_r; assumption|].
    rewrite !(Qcmult_comm (K1 * qabs t)). apply Qcmult_le_compat_r; [assumption|]. qnra. }
  eapply Qcle_trans; [exact P|]. replace (K1 * qabs t * (K2 * qabs t)) with (K * qabs t * qabs t) by (unfold K; ring).
  apply Qcmult_le_compat_r; [|assumption]. rewrite <- EK at 1. rewrite !(Qcmult_comm K). apply Qcmult_le_compat_r; [exact T3|]. apply Qclt_le_weak, KP.
Qed.
Lemma abs_nonzero c : c <> 0 -> qz 0 < qabs c.
Proof. intros N. apply Qcnot_le_lt. intros C. apply N. revert C. destruct (qabs_spec c) as [[A1 ->]|[A1 ->]]; change (qz 0) with 0; intros; qlra. Qed.
(** Near 0 a function keeps away from 0 if it does not vanish there. *)
Lemma away g a : slope g a -> g (qz 0) <> 0 -> exists del, qz 0 < del /\ forall t, qabs t <= del -> qabs (g (qz 0)) * qhalf <= qabs (g t).
Proof.
  intros G N. destruct (small_slope g a G) as (K & d & P & D & H). pose proof (abs_nonzero _ N) as C. set (c := qabs (g (qz 0))) in *.
  assert (EK : c * qhalf / K * K = c * qhalf) by (field; intros Z; rewrite Z in P; discriminate).
  assert (HH : qhalf + qhalf = 1) by (apply Qc_is_canon; reflexivity). assert (HP : qz 0 < qhalf) by reflexivity.
  assert (H2 : qz 0 < c * qhalf / K) by (apply Qcnot_le_lt; intros B; qnra).
  exists (qmin d (c * qhalf / K)). split; [apply qmin_pos; assumption|]. intros t Ht. destruct (le_min _ _ _ Ht) as [T1 T2]. specialize (H t T1). cbv beta in H.
  assert (B : K * qabs t <= c * qhalf) by (rewrite <- EK, (Qcmult_comm K); apply Qcmult_le_compat_r; [exact T2|apply Qclt_le_weak, P]).
  assert (T : c <= qabs (g t) + qabs (g t - g (qz 0))).
  { unfold c. replace (g (qz 0)) with (g t + - (1) * (g t - g (qz 0))) at 1 by ring. eapply Qcle_trans; [apply abs_tri|]. rewrite abs_mul. change (qabs (- (1))) with 1. rewrite Qcmult_1_l. apply Qcle_refl. }
  assert (CC : c * qhalf + c * qhalf = c) by (rewrite <- Qcmult_plus_distr_r, HH; ring). qlra.
Qed.
Lemma slope_inv g a : slope g a -> g (qz 0) <> 0 -> slope (fun t => / g t) (- a / (g (qz 0) * g (qz 0))).
Proof.
  intros G N. destruct (small_slope g a G) as (K & d & P & D & H). destruct (away g a G N) as (d' & D' & W). set (c := g (qz 0)) in *. pose proof (abs_nonzero _ N) as C.
  assert (S2 : small (fun t => (g t - c) / (g t * (c * c)))).
  { set (m := qabs c * qhalf * (qabs c * qabs c)). assert (HP : qz 0 < qhalf) by reflexivity. assert (M : qz 0 < m) by (unfold m; assert (qz 0 < qabs c * qhalf) by qnra; assert (qz 0 < qabs c * qabs c) by qnra; qnra).
    exists (K / m), (qmin d d'). assert (EM : K / m * m = K) by (field; intros Z; rewrite Z in M; discriminate).
    split; [apply Qcnot_le_lt; intros B; qnra|]. split; [apply qmin_pos; assumption|]. intros t Ht. destruct (le_min _ _ _ Ht) as [T1 T2]. specialize (H t T1). specialize (W t T2). cbv beta in *.
    assert (NG : g t <> 0) by (intros Z; rewrite Z in W; change (qabs 0) with 0 in W; assert (0 < qabs c * qhalf) by (change 0 with (qz 0); qnra); qlra).
    set (y := (g t - c) / (g t * (c * c))). assert (EY : y * (g t * (c * c)) = g t - c) by (unfold y; field; split; assumption).
    apply (f_equal qabs) in EY. rewrite !abs_mul in EY. rewrite <- EY in H. pose proof (abs_pos y) as Y0.
    assert (LM : m <= qabs (g t) * (qabs c * qabs c)) by (unfold m; apply Qcmult_le_compat_r; [exact W|change 0 with (qz 0); qnra]).
    assert (YM : qabs y * m <= K * qabs t) by (eapply Qcle_trans; [|exact H]; rewrite !(Qcmult_comm (qabs y)); apply Qcmult_le_compat_r; assumption).
    rewrite <- EM in YM. apply Qcmult_lt_0_le_reg_r with m; [exact M|]. replace (K / m * qabs t * m) with (K / m * m * qabs t) by ring. exact YM. }
  pose proof (small_product _ _ (small_slope g a G) S2) as SP. fold c in SP. cbv beta in SP. assert (Z : c - c = qz 0) by (change (qz 0) with 0; ring). specialize (SP Z).
  pose proof (slope_add _ _ _ _ SP (slope_add _ _ _ _ (slope_const (/ c + / c)) (slope_scale (- / (c * c)) g a G))) as S.
  replace (- a / (c * c)) with (qz 0 + (qz 0 + - / (c * c) * a)) by (change (qz 0) with 0; field; exact N).
  assert (E : forall t, g t <> 0 -> (g t - c) * ((g t - c) / (g t * (c * c))) + (/ c + / c + - / (c * c) * g t) = / g t) by (intros t NG; field; split; assumption).
  intros eps He. destruct (S eps He) as (d2 & D2 & S1). exists (qmin d' d2). split; [apply qmin_pos; assumption|]. intros t Ht. destruct (le_min _ _ _ Ht) as [T1 T2]. specialize (S1 t T2). cbv beta in S1. specialize (W t T1).
  assert (NG : g t <> 0) by (intros Z'; rewrite Z' in W; change (qabs 0) with 0 in W; assert (HP : qz 0 < qhalf) by reflexivity; assert (0 < qabs c * qhalf) by (change 0 with (qz 0); qnra); qlra).
  pose proof (E (qz 0) N) as E0. fold c in E0, S1. rewrite (E t NG), E0 in S1. exact S1.
Qed.
Lemma fo_quot a b g h : follows a g -> follows b h -> fst b <> 0 -> follows (d_div a b) (fun t => g t / h t).
Proof.
  intros [A SA] [B SB] N. split; [cbn [d_div fst]; rewrite A, B; reflexivity|]. cbn [d_div snd]. assert (N' : h (qz 0) <> 0) by congruence.
  pose proof (slope_mul g (fun t => / h t) _ _ SA (slope_inv h _ SB N')) as S. cbv beta in S. rewrite A, B in S.
  replace ((snd a * fst b - fst a * snd b) / (fst b * fst b)) with (snd a * / fst b + fst a * (- snd b / (fst b * fst b))) by (field; exact N). exact S.
Qed.
