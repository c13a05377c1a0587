(** Batch normalisation over several axes (C87). *)
From Coq Require Import ZArith QArith Qcanon List Bool Lia Arith String Ascii.
From Verif Require Import Base.Num Base.NumFacts Base.Tensor Model.FixedPoint Model.Quantizer Model.Layers Model.Bops Model.TrainBops Model.BatchNorm Model.Serial Model.Weights Model.BnLayer
  Spec.Fixed Spec.Quant Spec.History Spec.Layer Spec.Bops Spec.Norm Spec.BnStats Spec.Weights Spec.BnLayer Spec.BnAxes Proofs.TensorP Proofs.QuantizerP Proofs.RecordP Proofs.BitsP Proofs.SampleP Proofs.ShapeP Proofs.LayersP
  Proofs.BopsP Proofs.BopsL Proofs.HistoryP Proofs.CallP Proofs.TrainBopsP Proofs.BatchNormP Proofs.BnStatsP Proofs.WeightsP Proofs.BnLayerP.
Import ListNotations.
Local Open Scope nat_scope.

Lemma bshape_kept keep : forall dims, length keep = length dims -> bshape (kept keep dims) dims = Some dims.
Proof.
  unfold kept. induction keep as [|k ks IH]; intros [|d ds] L; try discriminate; [reflexivity|]. cbn [combine map fst snd bshape]. rewrite IH by (cbn in L; lia).
  destruct k; [rewrite Nat.eqb_refl; reflexivity|]. destruct d as [|[|d]]; reflexivity.
Qed.
Lemma bshape_kept1 keep dims : length keep = length dims -> bshape (1 :: kept keep dims) (1 :: dims) = Some (1 :: dims).
Proof. intros L. cbn [bshape]. rewrite bshape_kept by exact L. reflexivity. Qed.
Lemma bidx_kept keep : forall dims e, length keep = length dims -> e < prodn dims -> bidx (kept keep dims) dims e = channel keep dims e.
Proof.
  unfold kept. induction keep as [|k ks IH]; intros [|d ds] e L He; try discriminate; [reflexivity|]. cbn [combine map fst snd bidx channel]. rewrite prodn_cons in He.
  assert (NZ : prodn ds <> 0) by (intros Z; rewrite Z in He; lia). rewrite IH; [|cbn in L; lia|apply Nat.mod_upper_bound, NZ].
  assert (Q : e / prodn ds < d) by (apply Nat.div_lt_upper_bound; lia).
  destruct k; [|reflexivity]. unfold kept. destruct (Nat.eqb_spec d 1); [|reflexivity]. assert (Z0 : e / prodn ds = 0) by lia. rewrite Z0. reflexivity.
Qed.
Lemma prodn_kept1 s : prodn (1 :: s) = prodn s.
Proof. rewrite prodn_cons. lia. Qed.
Lemma bidx_kept1 keep dims e : length keep = length dims -> e < prodn dims -> bidx (1 :: kept keep dims) (1 :: dims) e = channel keep dims e.
Proof. intros L He. cbn [bidx Nat.eqb]. rewrite Nat.mul_0_l, Nat.add_0_l, Nat.mod_small by exact He. apply bidx_kept; assumption. Qed.
Lemma channel_lt keep dims e : length keep = length dims -> e < prodn dims -> channel keep dims e < prodn (kept keep dims).
Proof. intros L He. rewrite <- bidx_kept by assumption. apply bidx_lt; [apply bshape_kept, L|exact He]. Qed.

Lemma ker_kept axis keep : forall dims a, length keep = length dims -> (forall i, i < length dims -> existsb (Z.eqb (Z.of_nat (a + i))) axis = nth i keep false) ->
  map (fun id : nat * nat => if existsb (Z.eqb (Z.of_nat (fst id))) axis then snd id else 1) (combine (seq a (length dims)) dims) = kept keep dims.
Proof.
  unfold kept. induction keep as [|k ks IH]; intros [|d ds] a L H; try discriminate; [reflexivity|]. cbn [length seq combine map fst snd].
  pose proof (H 0 ltac:(cbn; lia)) as H0. rewrite Nat.add_0_r in H0. cbn [nth] in H0. rewrite H0. f_equal. apply IH; [cbn in L; lia|].
  intros i Hi. specialize (H (S i) ltac:(cbn; lia)). cbn [nth] in H. rewrite <- H. replace (S a + i) with (a + S i) by lia. reflexivity.
Qed.
Lemma ker_shape_kept axis keep dims : length keep = length dims -> (forall i, i < length dims -> existsb (Z.eqb (Z.of_nat (S i))) axis = nth i keep false) ->
  ker_shape axis dims = 1 :: kept keep dims.
Proof.
  intros L H. unfold ker_shape. cbn [length seq combine map fst snd]. rewrite (ker_kept axis keep) by (try assumption; intros; apply H; assumption).
  destruct (existsb _ _); reflexivity.
Qed.

Section K.
  Variable rsqrt pw : Qc -> Qc.
  Variable ln2 : Qc.
  Context (prev : hlayer) (l : bnorm) (keep : list bool) (m : nat) (p0 rest : list nat) (ker w : tensor Qc) (kq' : hgq).
  Hypothesis Ho : length keep = length (l_out prev).
  Hypothesis Hm : length p0 = m.
  Hypothesis Hs : 1 :: kept keep (l_out prev) = p0 ++ rest.
  Hypothesis HR : reg_ok m rest (q_fbw (m_kq l)).
  Hypothesis Hk : shape ker = 1 :: kept keep (l_out prev).
  Hypothesis Ek : bn_ker rsqrt l (m_var l) = Ok ker.
  Hypothesis Ew : call pw ln2 (m_kq l) ker false false (fun _ => qz 0) = Ok (w, kq').

  Lemma kept_w : shape w = 1 :: kept keep (l_out prev) /\ length (data w) = prodn (kept keep (l_out prev)).
  Proof.
    pose proof Ew as F. unfold call in F. assert (Sx : shape ker = p0 ++ rest) by congruence.
    destruct (forward_pos _ _ _ _ _ _ _ _ _ _ _ _ Hm Sx (reg_ok_clip _ _ _ HR) F) as [S [L _]]. split; [congruence|]. rewrite L, Hk. apply prodn_kept1.
  Qed.

  Lemma exact_kept : quantizer_shape (l_paq prev) (l_out prev) -> calibrated (l_paq prev) -> clip_ok (m_kq l) -> exists ib, act_bw_exact prev = Ok ib /\
    bn_exact_bops rsqrt pw ln2 (fun a => a) prev l = Ok (sum_to (prodn (l_out prev)) (fun e => nth e (data ib) 0 * nth (channel keep (l_out prev) e) (kernel_bw_exact (fun a => a) (data w)) 0))%Z.
  Proof.
    intros Hq HC Hcl. destruct (act_bw_exact_at prev Hq HC) as [ib [Ei [Li Ni]]]. exists ib. split; [exact Ei|]. unfold bn_exact_bops. rewrite Ek. cbn [rbind]. rewrite Ew. cbn [rbind fst snd].
    destruct (forward_again pw ln2 (m_kq l) ker (fun _ => qz 0) (fun _ => qz 0) w kq' m p0 rest Hcl Hm ltac:(congruence) HR Ew) as [q2 E2]. rewrite E2. cbn [rbind fst]. rewrite Ei. cbn [rbind].
    assert (Si : shape ib = 1 :: l_out prev).
    { pose proof Ei as E3. unfold act_bw_exact in E3. apply rbind_ok in E3. destruct E3 as [b [_ E3]]. exact (broadcast_to_shape _ _ _ _ E3). }
    destruct (bits_product (1 :: kept keep (l_out prev)) (l_out prev) ib (mkT (shape w) (kernel_bw_exact (fun a => a) (data w)))) as [t [Et Zt]];
      [apply bshape_kept1, Ho|exact Si|apply kept_w|]. rewrite Et. cbn [rbind]. rewrite Zt. f_equal. apply sum_to_ext. intros e He. cbn [data]. rewrite bidx_kept1 by assumption. reflexivity.
  Qed.

  Lemma reported_kept x (ib : tensor Z) noise : prefix_skip (q_skip (m_kq l)) m -> shape ib = 1 :: l_out prev ->
    exists kb, bn_bops rsqrt pw ln2 l x false ib noise = Ok (sum_to (prodn (l_out prev)) (fun e => nth e (data ib) 0 * nth (channel keep (l_out prev) e) (data kb) 0))%Z /\
      forall c r, c < prodn (kept keep (l_out prev)) -> nearest_even (nth (c mod prodn rest) (data (q_fbw kq')) (qz 0)) r ->
        magnitude_bits r (in_group (prodn rest) (c mod prodn rest) (data w)) (nth c (data kb) 0%Z).
  Proof.
    intros Hp Si. unfold bn_bops, bn_var. cbn [rbind]. rewrite Ek. cbn [rbind].
    assert (Ew' : call pw ln2 (m_kq l) ker false false noise = Ok (w, kq')) by (rewrite <- Ew; unfold call; apply forward_noise). rewrite Ew'. cbn [rbind fst snd].
    pose proof (call_state _ _ _ _ _ _ _ Ew) as Q. destruct kept_w as [Sw Lw].
    destruct (trained_bits kq' w m p0 rest) as [kb [E [Sk [Lk Nk]]]].
    - rewrite Q. unfold clip_fbw. destruct (q_clip (m_kq l)) as [[lo hi]|]; exact Hp.
    - exact Hm.
    - congruence.
    - rewrite Sw, prodn_kept1. exact Lw.
    - rewrite Q. apply reg_ok_clip, HR.
    - rewrite E. cbn [rbind]. exists kb. destruct (bits_product (1 :: kept keep (l_out prev)) (l_out prev) ib kb) as [t [Et Zt]]; [apply bshape_kept1, Ho|exact Si|congruence|].
      rewrite Et. cbn [rbind]. rewrite Zt. split.
      + f_equal. apply sum_to_ext. intros e He. rewrite bidx_kept1 by assumption. reflexivity.
      + intros c r Hc Hr. apply Nk; [rewrite Sw, prodn_kept1; exact Hc|exact Hr].
  Qed.

  Lemma grid_kept p v r : nth_error (data w) p = Some v -> nearest_even (nth (p mod prodn rest) (data (q_fbw kq')) (qz 0)) r -> on_grid r v.
  Proof.
    intros Hv Hr. assert (Sx : shape ker = p0 ++ rest) by congruence. pose proof (call_state _ _ _ _ _ _ _ Ew) as Q. pose proof Ew as F. unfold call in F.
    destruct (forward_grid pw ln2 (clip_fbw (m_kq l)) ker w kq' m p0 rest F Hm Sx (reg_ok_clip _ _ _ HR)) as [_ [_ [_ G]]]. rewrite Q in Hr. exact (G _ _ _ Hv Hr).
  Qed.
End K.

(** ** Statistics *)

Lemma build_axes a dims keep kq paq l : let rank := Z.of_nat (S (length dims)) in
  length keep = length dims ->
  (forall i, i < length dims -> nth i keep false = true <-> exists z, In z (ba_axis a) /\ (z mod rank)%Z = Z.of_nat (S i)) ->
  bn_build a dims kq paq = Ok l ->
  exists ax, m_axes l = reduction_axis ax (S (length dims)) /\ m_momentum l = ba_momentum a /\ existsb (Z.eqb 0) ax = false /\
    (forall i, i < length dims -> existsb (Z.eqb (Z.of_nat (S i))) ax = nth i keep false) /\
    (ba_scale a = true -> shape (m_gamma l) = ker_shape ax dims /\ shape (m_var l) = ker_shape ax dims) /\
    (ba_center a = true -> shape (m_beta l) = ker_shape ax dims /\ shape (m_mean l) = ker_shape ax dims).
Proof.
  intros rank L HK E. unfold bn_build, validate_axis in E. fold rank in E. cbn [Nat.eqb negb andb] in E.
  destruct (forallb _ _) eqn:F in E; cbn [andb] in E; [|discriminate]. destruct (nodupb _); [|discriminate]. cbn [rbind] in E.
  set (ax := map _ (ba_axis a)) in *. destruct (existsb (Z.eqb 0) ax) eqn:X; [discriminate|].
  assert (R : (0 < rank)%Z) by (unfold rank; lia). exists ax. injection E as <-. cbn [m_axes m_momentum m_gamma m_var m_beta m_mean].
  split; [reflexivity|]. split; [reflexivity|]. split; [exact X|]. split.
  2: split; intros ->; split; reflexivity.
  intros i Hi. specialize (HK i Hi).
  assert (HE : existsb (Z.eqb (Z.of_nat (S i))) ax = true <-> exists z, In z (ba_axis a) /\ (z mod rank)%Z = Z.of_nat (S i)).
  { rewrite existsb_exists. assert (FZ : forall z, In z (ba_axis a) -> (if (z <? 0)%Z then (rank + z)%Z else z) = (z mod rank)%Z).
    { intros z I. rewrite forallb_forall in F. specialize (F _ (in_map _ _ _ I)). cbv beta in F. apply andb_true_iff in F. destruct F as [F1 F2]. apply Z.leb_le in F1. apply Z.ltb_lt in F2.
      destruct (Z.ltb_spec z 0); [apply (Z.mod_unique_pos z rank (-1)); lia|rewrite Z.mod_small; lia]. }
    split.
    - intros [y [I Y]]. apply Z.eqb_eq in Y. subst y. apply in_map_iff in I. destruct I as [z [Ez I]]. exists z. split; [exact I|]. rewrite <- Ez. symmetry. apply FZ, I.
    - intros [z [I Ez]]. exists (Z.of_nat (S i)). split; [|apply Z.eqb_refl]. apply in_map_iff. exists z. split; [|exact I]. rewrite <- Ez. apply FZ, I. }
  destruct (existsb (Z.eqb (Z.of_nat (S i))) ax), (nth i keep false); try reflexivity; exfalso.
  - apply diff_false_true. apply HK, HE. reflexivity.
  - apply diff_false_true. apply HE, HK. reflexivity.
Qed.

Lemma flag_reduction ax rank d : d < rank ->
  existsb (fun b => (Z.eqb b (Z.of_nat d) || Z.eqb b (Z.of_nat d - Z.of_nat rank))%bool) (reduction_axis ax rank) = negb (existsb (Z.eqb (Z.of_nat d)) ax).
Proof.
  intros Hd. destruct (existsb (Z.eqb (Z.of_nat d)) ax) eqn:X; cbn [negb].
  - destruct (existsb _ (reduction_axis ax rank)) eqn:Y; [|reflexivity]. apply existsb_exists in Y. destruct Y as [b [I Y]]. unfold reduction_axis in I.
    apply filter_In in I. destruct I as [I N]. apply in_map_iff in I. destruct I as [j [<- I]]. apply in_seq in I. apply orb_true_iff in Y. destruct Y as [Y|Y]; apply Z.eqb_eq in Y; [|lia].
    rewrite Y, X in N. discriminate.
  - apply existsb_exists. exists (Z.of_nat d). split; [|rewrite Z.eqb_refl; reflexivity]. unfold reduction_axis. apply filter_In. split; [apply in_map, in_seq; lia|]. rewrite X. reflexivity.
Qed.
Lemma kept1_kept f keep : forall dims a, length keep = length dims -> (forall i, i < length dims -> f (a + i) = negb (nth i keep false)) ->
  kept1 (map f (seq a (length dims))) dims = kept keep dims.
Proof.
  unfold kept. induction keep as [|k ks IH]; intros [|d ds] a L H; try discriminate; [reflexivity|]. cbn [length seq map combine fst snd kept1].
  pose proof (H 0 ltac:(cbn; lia)) as H0. rewrite Nat.add_0_r in H0. cbn [nth] in H0. rewrite H0. f_equal; [destruct k; reflexivity|]. apply IH; [cbn in L; lia|].
  intros i Hi. specialize (H (S i) ltac:(cbn; lia)). cbn [nth] in H. rewrite <- H. f_equal. lia.
Qed.
Lemma reduced_shape ax keep n dims : length keep = length dims -> existsb (Z.eqb 0) ax = false ->
  (forall i, i < length dims -> existsb (Z.eqb (Z.of_nat (S i))) ax = nth i keep false) ->
  kept1 (axis_flags (S (length dims)) (reduction_axis ax (S (length dims)))) (n :: dims) = 1 :: kept keep dims.
Proof.
  intros L X H. unfold axis_flags. cbn [seq map]. cbn [kept1]. rewrite flag_reduction by lia. change (Z.of_nat 0) with 0%Z. rewrite X. cbn [negb]. f_equal.
  apply kept1_kept; [exact L|]. intros i Hi. rewrite flag_reduction by lia. f_equal. apply H, Hi.
Qed.
Lemma group_channel keep n dims c (x : tensor Qc) : length keep = length dims -> wf_tensor x -> shape x = n :: dims ->
  group_of (1 :: kept keep dims) x c = of_channel keep dims c (data x).
Proof.
  intros L W Sx. unfold group_of, of_channel. f_equal. apply filter_ext_in. intros [p v] I. apply in_combine_l, in_seq in I. cbn [fst]. unfold wf_tensor in W. rewrite Sx, prodn_cons in W.
  assert (NZ : prodn dims <> 0) by (intros Z; rewrite Z in W; lia). rewrite Sx. cbn [bidx Nat.eqb]. rewrite Nat.mul_0_l, Nat.add_0_l, bidx_kept; [reflexivity|exact L|apply Nat.mod_upper_bound, NZ].
Qed.
