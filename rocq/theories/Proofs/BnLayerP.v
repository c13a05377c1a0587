(** Bit operations and life of HBatchNormalization (C87, C88). *)
From Coq Require Import ZArith QArith Qcanon List Bool Lia Arith String Ascii.
From Verif Require Import Base.Num Base.NumFacts Base.Tensor Model.FixedPoint Model.Quantizer Model.Layers Model.Bops Model.TrainBops Model.BatchNorm Model.Serial Model.Weights Model.BnLayer
  Spec.Fixed Spec.Quant Spec.History Spec.Layer Spec.Bops Spec.Weights Spec.BnLayer Proofs.TensorP Proofs.QuantizerP Proofs.RecordP Proofs.BitsP Proofs.SampleP Proofs.ShapeP Proofs.LayersP
  Proofs.BopsP Proofs.BopsL Proofs.HistoryP Proofs.CallP Proofs.TrainBopsP Proofs.BatchNormP Proofs.BnStatsP Proofs.WeightsP.
Import ListNotations.
Local Open Scope nat_scope.

Lemma broadcast_to_shape {A} (d : A) t s y : broadcast_to d t s = Ok y -> shape y = s.
Proof.
  unfold broadcast_to. destruct (broadcast_shape _ _) as [b|]; [|discriminate]. destruct (list_eq_dec _ _ _) as [->|]; [|discriminate].
  intros E. injection E as <-. reflexivity.
Qed.

(** Products of bits, broadcast from the kernel to the input. *)
Lemma bits_product s out (ib kb : tensor Z) : bshape s (1 :: out) = Some (1 :: out) -> shape ib = 1 :: out -> shape kb = s ->
  exists t, bmap2 0%Z 0%Z Z.mul ib kb = Ok t /\
    zsum (data t) = sum_to (prodn out) (fun e => (nth e (data ib) 0 * nth (bidx s (1 :: out)%nat e) (data kb) 0)%Z).
Proof.
  intros HB Hi Hk. assert (L : length s = length (1 :: out)).
  { clear Hi Hk. revert HB. generalize (1 :: out) at 2. generalize (1 :: out). revert s. induction s as [|a s IH]; intros [|b o] r H; try discriminate; [reflexivity|].
    cbn [bshape] in H. destruct (bshape s o) as [q|] eqn:E; [|discriminate]. cbn [length]. f_equal. exact (IH _ _ E). }
  unfold bmap2, broadcast_shape. rewrite Hi, Hk, L, Nat.max_id, !pad_to_eq by (rewrite ?L; reflexivity). rewrite bshape_comm, HB.
  eexists. split; [reflexivity|]. cbn [data]. rewrite !pad_to_eq by (rewrite ?L; reflexivity). rewrite zsum_seq.
  change (prodn (1 :: out)) with (1 * prodn out). rewrite Nat.mul_1_l. apply sum_to_ext. intros e He.
  rewrite bidx_self by (change (prodn (1 :: out)) with (1 * prodn out); lia). reflexivity.
Qed.

Lemma bidx_lt s : forall big p, bshape s big = Some big -> p < prodn big -> bidx s big p < prodn s.
Proof.
  induction s as [|a s IH]; intros [|b big] p HB Hp; try discriminate; [cbn; lia|]. cbn [bshape] in HB.
  destruct (bshape s big) as [r|] eqn:E; [|discriminate]. rewrite prodn_cons in *. assert (NZ : prodn big <> 0) by (intros Z; rewrite Z in Hp; lia).
  assert (R : r = big) by (destruct (Nat.eqb a b); [congruence|]; destruct (Nat.eqb a 1); [congruence|]; destruct (Nat.eqb b 1); congruence). subst r.
  specialize (IH _ (p mod prodn big) E ltac:(apply Nat.mod_upper_bound, NZ)). cbn [bidx].
  assert (Q : p / prodn big < b) by (apply Nat.div_lt_upper_bound; lia).
  destruct (Nat.eqb_spec a 1) as [->|Na]; [lia|]. destruct (Nat.eqb_spec a b) as [->|Nb]; [nia|].
  destruct (Nat.eqb_spec b 1); [|discriminate]. injection HB as HB. congruence.
Qed.

Section B.
  Variable rsqrt pw : Qc -> Qc.
  Variable ln2 : Qc.

  Lemma call_state q x noise y q' : call pw ln2 q x false false noise = Ok (y, q') -> q' = clip_fbw q.
  Proof. intros E. unfold call in E. destruct (forward_elems _ _ _ _ _ _ _ _ _ E) as [_ [_ [_ [Q _]]]]. exact (Q eq_refl). Qed.

  Lemma forward_total_inf q x noise m pre rest : length pre = m -> shape x = pre ++ rest -> reg_ok m rest (q_fbw q) ->
    exists y q', forward pw ln2 q x false false noise = Ok (y, q').
  Proof.
    intros Hm Hx [R1 R2]. unfold forward. destruct (bmap2 (qz 0) (qz 0) _ x (q_fbw q)) as [vf|] eqn:E.
    - cbn [rbind negb].
      assert (T : exists ys, rseq (map (fun pvf : nat * (Qc * Qc) => forward_elem pw ln2 (q_strategy q) (q_exact q) false (noise (fst pvf)) (snd (snd pvf)) (fst (snd pvf)))
                    (combine (seq 0 (length (data vf))) (data vf))) = Ok ys).
      { induction (combine _ _) as [|a l IH]; [exists []; reflexivity|]. cbn [map rseq]. rewrite forward_inference. cbn [rbind]. destruct IH as [ys ->]. cbn [rbind]. eauto. }
      destruct T as [ys T]. rewrite T. cbn [rbind]. eauto.
    - exfalso. unfold bmap2 in E. rewrite R1, Hx, <- Hm, broadcast_prefix in E. discriminate.
  Qed.

  Lemma forward_again q x noise noise' y q' m pre rest : clip_ok q -> length pre = m -> shape x = pre ++ rest -> reg_ok m rest (q_fbw q) ->
    call pw ln2 q x false false noise = Ok (y, q') -> exists q'', forward pw ln2 q' y false false noise' = Ok (y, q'').
  Proof.
    intros Hc Hm Hx HR E. pose proof (call_state _ _ _ _ _ E) as Q.
    assert (Hy : shape y = pre ++ rest).
    { unfold call in E. destruct (forward_pos _ _ _ _ _ _ _ _ _ _ _ _ Hm Hx (reg_ok_clip _ _ _ HR) E) as [S _]. congruence. }
    assert (HR' : reg_ok m rest (q_fbw q')) by (rewrite Q; apply reg_ok_clip, HR).
    destruct (forward_total_inf q' y noise' m pre rest Hm Hy HR') as [z [q2 F]]. exists q2. rewrite F. do 2 f_equal.
    apply (call_idem pw ln2 m pre rest q x false noise noise' y q' z q2 Hc Hm Hx HR E). unfold call. rewrite Q, clip_fbw_idem by exact Hc. rewrite <- Q. exact F.
  Qed.
End B.

(** ** One axis *)

Lemma bshape_axis pre d post : bshape (on_axis pre d post) (1 :: pre ++ d :: post) = Some (1 :: pre ++ d :: post).
Proof.
  assert (G : forall s, bshape (repeat 1 (length s)) s = Some s) by (intros s; rewrite bshape_comm; apply bshape_ones).
  unfold on_axis. cbn [repeat app bshape].
  assert (H : bshape (repeat 1 (length pre) ++ d :: repeat 1 (length post)) (pre ++ d :: post) = Some (pre ++ d :: post)).
  { induction pre as [|a pre IH]; cbn [length repeat app bshape].
    - rewrite G, Nat.eqb_refl. reflexivity.
    - rewrite IH. destruct a as [|[|a]]; reflexivity. }
  rewrite H. reflexivity.
Qed.
Lemma prodn_axis pre d post : prodn (on_axis pre d post) = d.
Proof. unfold on_axis. rewrite prodn_app, prodn_ones, prodn_cons, prodn_ones. lia. Qed.
Lemma bidx_axis pre d post e : e < prodn (pre ++ d :: post) -> bidx (on_axis pre d post) (1 :: pre ++ d :: post) e = (e / prodn post) mod d.
Proof.
  intros He. unfold on_axis. cbn [repeat app bidx Nat.eqb]. rewrite Nat.mul_0_l, Nat.add_0_l, Nat.mod_small by exact He. revert e He.
  induction pre as [|a pre IH]; intros e He; cbn [app length repeat bidx] in *; rewrite prodn_cons in He.
  - rewrite bidx_ones, prodn_ones, Nat.mul_1_r, Nat.add_0_r. assert (NZ : prodn post <> 0) by (intros Z; rewrite Z in He; lia).
    assert (Q : e / prodn post < d) by (apply Nat.div_lt_upper_bound; lia). rewrite Nat.mod_small by exact Q. destruct (Nat.eqb_spec d 1); lia.
  - cbn [Nat.eqb]. rewrite Nat.mul_0_l, Nat.add_0_l. set (M := prodn (pre ++ d :: post)) in *. assert (NM : M <> 0) by (intros Z; rewrite Z in He; lia).
    rewrite IH by (apply Nat.mod_upper_bound, NM). assert (EM : M = prodn pre * d * prodn post) by (unfold M; rewrite prodn_app, prodn_cons; lia).
    assert (NP : prodn post <> 0) by (intros Z; rewrite Z in EM; lia). assert (ND : d <> 0) by (intros Z; rewrite Z in EM; lia).
    pose proof (Nat.div_mod e M NM) as D. set (r := e mod M) in *. set (q := e / M) in *. clearbody q r. rewrite D, EM.
    replace (prodn pre * d * prodn post * q + r) with (r + (q * prodn pre * d) * prodn post) by lia. rewrite Nat.div_add by exact NP.
    rewrite Nat.add_comm, Nat.add_comm, Nat.mod_add by exact ND. reflexivity.
Qed.

Lemma existsb_one i n : existsb (Z.eqb (Z.of_nat i)) [Z.of_nat n] = Nat.eqb i n.
Proof. cbn. rewrite orb_false_r. destruct (Nat.eqb_spec i n), (Z.eqb_spec (Z.of_nat i) (Z.of_nat n)); try reflexivity; lia. Qed.
Lemma ker_shape_off n s : forall a, n < a -> map (fun id : nat * nat => if existsb (Z.eqb (Z.of_nat (fst id))) [Z.of_nat n] then snd id else 1) (combine (seq a (length s)) s) = repeat 1 (length s).
Proof.
  induction s as [|x s IH]; intros a H; [reflexivity|]. cbn [length seq combine map fst snd repeat]. rewrite existsb_one.
  destruct (Nat.eqb_spec a n); [lia|]. f_equal. apply IH. lia.
Qed.
Lemma ker_shape_axis pre d post : ker_shape [Z.of_nat (S (length pre))] (pre ++ d :: post) = on_axis pre d post.
Proof.
  unfold ker_shape, on_axis. cbn [length]. rewrite app_length. cbn [length seq combine map fst snd repeat app]. rewrite existsb_one. cbn [Nat.eqb]. f_equal.
  assert (G : forall a, map (fun id : nat * nat => if existsb (Z.eqb (Z.of_nat (fst id))) [Z.of_nat (a + length pre)] then snd id else 1)
      (combine (seq a (length pre + S (length post))) (pre ++ d :: post)) = repeat 1 (length pre) ++ d :: repeat 1 (length post)).
  { induction pre as [|x pre IH]; intros a; cbn [length app Nat.add seq combine map fst snd repeat].
    - rewrite existsb_one, Nat.add_0_r, Nat.eqb_refl. f_equal. rewrite ker_shape_off by lia. reflexivity.
    - rewrite existsb_one. destruct (Nat.eqb_spec a (a + S (length pre))); [lia|]. f_equal. rewrite <- (IH (S a)). replace (S a + length pre) with (a + S (length pre)) by lia. reflexivity. }
  exact (G 1).
Qed.

(** ** The scale *)

Section K.
  Variable rsqrt pw : Qc -> Qc.
  Variable ln2 : Qc.

  Lemma bn_ker_value l s ker : shape (m_gamma l) = s -> shape (m_var l) = s -> shape ker = s -> length (data ker) = prodn s ->
    (forall c, c < prodn s -> nth c (data ker) (qz 0) = (nth c (data (m_gamma l)) (qz 0) * rsqrt (nth c (data (m_var l)) (qz 0) + m_eps l))%Qc) ->
    bn_ker rsqrt l (m_var l) = Ok ker.
  Proof.
    intros H1 H2 H3 H4 H5. unfold bn_ker. destruct (bmap2_same (qz 0) (qz 0) (fun g v => (g * rsqrt (v + m_eps l))%Qc) (m_gamma l) (m_var l)) as [y [E [Sy [Ly Ny]]]]; [congruence|].
    rewrite E. f_equal. destruct y as [sy dy], ker as [sk dk]. cbn [shape data] in *. f_equal; [congruence|]. rewrite H1 in *.
    apply (nth_ext _ _ (qz 0) (qz 0)); [congruence|]. intros n Hn. rewrite Ny, H5 by lia. reflexivity.
  Qed.

  Context (prev : hlayer) (l : bnorm) (pre : list nat) (d : nat) (post : list nat) (m : nat) (p0 rest : list nat) (ker w : tensor Qc) (kq' : hgq).
  Hypothesis Ho : l_out prev = pre ++ d :: post.
  Hypothesis Hq : quantizer_shape (l_paq prev) (l_out prev).
  Hypothesis HC : calibrated (l_paq prev).
  Hypothesis Hcl : clip_ok (m_kq l).
  Hypothesis Hm : length p0 = m.
  Hypothesis Hs : on_axis pre d post = p0 ++ rest.
  Hypothesis HR : reg_ok m rest (q_fbw (m_kq l)).
  Hypothesis Hk : shape ker = on_axis pre d post.
  Hypothesis Ek : bn_ker rsqrt l (m_var l) = Ok ker.
  Hypothesis Ew : call pw ln2 (m_kq l) ker false false (fun _ => qz 0) = Ok (w, kq').
  Hypothesis HG : forall v, In v (data w) -> on_grid 31 v /\ (qabs v < pow2 64)%Qc.

  Let Hw : shape w = on_axis pre d post /\ length (data w) = d.
  Proof.
    unfold call in Ew. assert (Sx : shape ker = p0 ++ rest) by congruence.
    destruct (forward_pos _ _ _ _ _ _ _ _ _ _ _ _ Hm Sx (reg_ok_clip _ _ _ HR) Ew) as [S [L _]]. split; [congruence|]. rewrite L, Hk. apply prodn_axis.
  Qed.

  Lemma exact_sum : exists ib, act_bw_exact prev = Ok ib /\
    bn_exact_bops rsqrt pw ln2 (fun a => a) prev l = Ok (sum_to (prodn (l_out prev)) (fun e => nth e (data ib) 0 * nth ((e / prodn post) mod d) (kernel_bw_exact (fun a => a) (data w)) 0))%Z.
  Proof.
    destruct (act_bw_exact_at prev Hq HC) as [ib [Ei [Li Ni]]]. exists ib. split; [exact Ei|]. unfold bn_exact_bops. rewrite Ek. cbn [rbind]. rewrite Ew. cbn [rbind fst snd].
    destruct (forward_again pw ln2 (m_kq l) ker (fun _ => qz 0) (fun _ => qz 0) w kq' m p0 rest Hcl Hm ltac:(congruence) HR Ew) as [q2 E2]. rewrite E2. cbn [rbind fst]. rewrite Ei. cbn [rbind].
    assert (Si : shape ib = 1 :: l_out prev).
    { pose proof Ei as E3. unfold act_bw_exact in E3. apply rbind_ok in E3. destruct E3 as [b [_ E3]]. exact (broadcast_to_shape _ _ _ _ E3). }
    destruct (bits_product (on_axis pre d post) (l_out prev) ib (mkT (shape w) (kernel_bw_exact (fun a => a) (data w)))) as [t [Et Zt]];
      [rewrite Ho; apply bshape_axis|exact Si|apply Hw|]. rewrite Et. cbn [rbind]. rewrite Zt. f_equal. apply sum_to_ext. intros e He. cbn [data]. rewrite Ho in He |- *. rewrite bidx_axis by exact He. reflexivity.
  Qed.

  Lemma reported_sum x (ib : tensor Z) noise : prefix_skip (q_skip (m_kq l)) m -> shape ib = 1 :: l_out prev ->
    exists kb, bn_bops rsqrt pw ln2 l x false ib noise = Ok (sum_to (prodn (l_out prev)) (fun e => nth e (data ib) 0 * nth ((e / prodn post) mod d) (data kb) 0))%Z /\
      forall c r, c < d -> nearest_even (nth (c mod prodn rest) (data (q_fbw kq')) (qz 0)) r ->
        magnitude_bits r (in_group (prodn rest) (c mod prodn rest) (data w)) (nth c (data kb) 0%Z).
  Proof.
    intros Hp Si. unfold bn_bops, bn_var. cbn [rbind]. rewrite Ek. cbn [rbind].
    assert (Ew' : call pw ln2 (m_kq l) ker false false noise = Ok (w, kq')) by (rewrite <- Ew; unfold call; apply forward_noise). rewrite Ew'. cbn [rbind fst snd].
    pose proof (call_state _ _ _ _ _ _ _ Ew) as Q. destruct Hw as [Sw Lw].
    destruct (trained_bits kq' w m p0 rest) as [kb [E [Sk [Lk Nk]]]].
    - rewrite Q. unfold clip_fbw. destruct (q_clip (m_kq l)) as [[lo hi]|]; exact Hp.
    - exact Hm.
    - congruence.
    - rewrite Sw, prodn_axis. exact Lw.
    - rewrite Q. apply reg_ok_clip, HR.
    - rewrite E. cbn [rbind]. exists kb. destruct (bits_product (on_axis pre d post) (l_out prev) ib kb) as [t [Et Zt]]; [rewrite Ho; apply bshape_axis|exact Si|congruence|].
      rewrite Et. cbn [rbind]. rewrite Zt. split.
      + f_equal. apply sum_to_ext. intros e He. rewrite Ho in He |- *. rewrite bidx_axis by exact He. reflexivity.
      + intros c r Hc Hr. apply Nk; [rewrite Sw, prodn_axis; exact Hc|exact Hr].
  Qed.

  Lemma kernel_grid p v r : nth_error (data w) p = Some v -> nearest_even (nth (p mod prodn rest) (data (q_fbw kq')) (qz 0)) r -> on_grid r v.
  Proof.
    intros Hv Hr. assert (Sx : shape ker = p0 ++ rest) by congruence. pose proof (call_state _ _ _ _ _ _ _ Ew) as Q. unfold call in Ew.
    destruct (forward_grid pw ln2 (clip_fbw (m_kq l)) ker w kq' m p0 rest Ew Hm Sx (reg_ok_clip _ _ _ HR)) as [_ [_ [_ G]]]. rewrite Q in Hr. exact (G _ _ _ Hv Hr).
  Qed.
End K.

Lemma sum_to_le n f g : (forall i, i < n -> (0 <= f i <= g i)%Z) -> (0 <= sum_to n f <= sum_to n g)%Z.
Proof. induction n as [|n IH]; intros H; cbn [sum_to]; [lia|]. pose proof (H n ltac:(lia)). specialize (IH ltac:(intros; apply H; lia)). lia. Qed.

(** ** Calls and graphs *)

Section C.
  Variable rsqrt pw : Qc -> Qc.
  Variable ln2 : Qc.
  Variable lg : Qc -> Qc.

  Lemma bnorm_forward_state l x training record n1 n2 n3 y l' : bnorm_forward rsqrt pw ln2 l x training record n1 n2 n3 = Ok (y, l') ->
    m_kq l' = clip_fbw (m_kq l) /\ m_gamma l' = m_gamma l /\ m_axes l' = m_axes l /\ m_eps l' = m_eps l /\ (training = false -> m_mean l' = m_mean l /\ m_var l' = m_var l).
  Proof.
    unfold bnorm_forward. intros E. apply rbind_ok in E. destruct E as [[[[mean var] mm] mv] [E1 E]]. apply rbind_ok in E. destruct E as [z [_ E]].
    apply rbind_ok in E. destruct E as [yq [_ E]]. apply (f_equal (fun r => match r with Ok p => Some (snd p) | Raise => None end)) in E. cbn [snd] in E.
    assert (E' : l' = mkN (m_gamma l) (m_beta l) mm mv (m_eps l) (m_momentum l) (m_axes l) (clip_fbw (m_kq l)) (snd yq)) by congruence. clear E. subst l'. cbn [m_kq m_gamma m_axes m_mean m_var m_eps].
    split; [reflexivity|]. split; [reflexivity|]. split; [reflexivity|]. split; [reflexivity|]. intros ->. cbn [m_mean m_var] in *. split; congruence.
  Qed.

  Lemma bn_call_ok l adapt x training record ib n1 n2 n3 y l' bo : bn_call rsqrt pw ln2 lg l adapt x training record ib n1 n2 n3 = Ok (y, l', bo) ->
    (training = true -> can_update l x = true) /\
    exists l1, (if adapt then bn_adapt rsqrt lg l x training else Ok l) = Ok l1 /\ bnorm_forward rsqrt pw ln2 l1 x training record n1 n2 n3 = Ok (y, l').
  Proof.
    unfold bn_call. destruct (training && negb (can_update l x))%bool eqn:U; [discriminate|]. intros E. split.
    - intros ->. destruct (can_update l x); [reflexivity|discriminate].
    - apply rbind_ok in E. destruct E as [l1 [E1 E]]. apply rbind_ok in E. destruct E as [[y' l''] [E2 E]]. apply rbind_ok in E. destruct E as [b [_ E]]. cbn [fst snd] in E.
      exists l1. split; [exact E1|]. rewrite E2. congruence.
  Qed.

  Lemma bn_adapt_state l x training l1 : bn_adapt rsqrt lg l x training = Ok l1 -> m_gamma l1 = m_gamma l /\ m_mean l1 = m_mean l /\ m_var l1 = m_var l.
  Proof.
    unfold bn_adapt. intros E. apply rbind_ok in E. destruct E as [v [_ E]]. apply rbind_ok in E. destruct E as [k [_ E]]. apply rbind_ok in E. destruct E as [t [_ E]].
    apply rbind_ok in E. destruct E as [f [_ E]]. assert (l1 = with_kq l (with_fbw (m_kq l) f)) by congruence. subst l1. repeat split.
  Qed.

  Lemma no_update l x : shape (m_mean l) = [] \/ shape (m_var l) = [] -> shape x <> [] -> can_update l x = false.
  Proof.
    intros H Hx. unfold can_update. set (s := kept1 _ _). assert (N : s <> []).
    { unfold s. intros C. apply (f_equal (@length nat)) in C. rewrite kept1_length in C. destruct (shape x); [congruence|discriminate]. }
    destruct H as [-> | ->].
    - destruct (list_eq_dec Nat.eq_dec [] s) as [C|_]; [congruence|reflexivity].
    - destruct (list_eq_dec Nat.eq_dec [] s) as [C|_]; [congruence|apply andb_false_r].
  Qed.

  (** Once the flag is down, only graphs traced before change the bitwidths. *)
  Lemma bits_kept n1 n2 n3 h : forall l flag graphs l' flag' graphs', bits_clipped (m_kq l) -> flag = false ->
    (forall n x t r, In (BRun n x t r) h -> nth_error graphs n <> Some true) ->
    bn_events rsqrt pw ln2 lg n1 n2 n3 h (l, flag, graphs) = Ok (l', flag', graphs') -> m_kq l' = m_kq l /\ flag' = false.
  Proof.
    induction h as [|e h IH]; intros l flag graphs l' flag' graphs' Hc Hf HG E; cbn [bn_events] in E; [split; congruence|].
    apply rbind_ok in E. destruct E as [[[l1 f1] g1] [E1 E]].
    assert (K : forall l2 x t r y bo, bn_call rsqrt pw ln2 lg l false x t r None n1 n2 n3 = Ok (y, l2, bo) -> m_kq l2 = m_kq l).
    { intros l2 x t r y bo B. apply bn_call_ok in B. destruct B as [_ [l3 [B1 B2]]]. assert (l3 = l) by congruence. subst l3. apply bnorm_forward_state in B2. destruct B2 as [-> _]. apply clip_id_fbw. exact Hc. }
    destruct e as [|n x t r|x t r]; cbn [bn_step] in E1.
    - assert (l1 = l /\ f1 = false /\ g1 = (graphs ++ [flag])%list) by (repeat split; congruence). destruct H as [-> [-> ->]].
      refine (IH _ _ _ _ _ _ Hc eq_refl _ E). intros n x t r Hin C. pose proof (HG n x t r (or_intror Hin)) as HN.
      destruct (Nat.lt_ge_cases n (length graphs)) as [L|L]; [rewrite nth_error_app1 in C by exact L; contradiction|]. rewrite nth_error_app2 in C by exact L.
      destruct (n - length graphs) as [|k]; cbn in C; [congruence|destruct k; discriminate].
    - pose proof (HG n x t r (or_introl eq_refl)) as HN. destruct (nth_error graphs n) as [[|]|] eqn:EN; [congruence| |discriminate].
      apply rbind_ok in E1. destruct E1 as [[[y l2] bo] [B E1]]. cbn [fst snd] in E1. assert (l1 = l2 /\ f1 = flag /\ g1 = graphs) by (repeat split; congruence). destruct H as [-> [-> ->]].
      pose proof (K _ _ _ _ _ _ B) as KQ. destruct (IH _ _ _ _ _ _ ltac:(rewrite KQ; exact Hc) Hf (fun n x t r Hin => HG n x t r (or_intror Hin)) E) as [A1 A2]. split; [congruence|exact A2].
    - subst flag. apply rbind_ok in E1. destruct E1 as [[[y l2] bo] [B E1]]. cbn [fst snd] in E1. assert (l1 = l2 /\ f1 = false /\ g1 = graphs) by (repeat split; congruence). destruct H as [-> [-> ->]].
      pose proof (K _ _ _ _ _ _ B) as KQ. destruct (IH _ _ _ _ _ _ ltac:(rewrite KQ; exact Hc) eq_refl (fun n x t r Hin => HG n x t r (or_intror Hin)) E) as [A1 A2]. split; [congruence|exact A2].
  Qed.

  (** Without a parameter to update, no history with a training call succeeds. *)
  Lemma no_training n1 n2 n3 h : forall s s', shape (m_mean (fst (fst s))) = [] \/ shape (m_var (fst (fst s))) = [] ->
    (forall x t r, In (BEager x t r) h \/ (exists n, In (BRun n x t r) h) -> shape x <> []) ->
    bn_events rsqrt pw ln2 lg n1 n2 n3 h s = Ok s' ->
    forall x t r, In (BEager x t r) h \/ (exists n, In (BRun n x t r) h) -> t = false.
  Proof.
    induction h as [|e h IH]; intros [[l flag] graphs] s' HS HX E x t r Hin; [destruct Hin as [[]|[n []]]|]. cbn [bn_events] in E. apply rbind_ok in E. destruct E as [[[l1 f1] g1] [E1 E]]. cbn [fst] in HS.
    assert (K : forall a x' t r' y l2 bo, shape x' <> [] -> bn_call rsqrt pw ln2 lg l a x' t r' None n1 n2 n3 = Ok (y, l2, bo) ->
        t = false /\ (shape (m_mean l2) = [] \/ shape (m_var l2) = [])).
    { clear x t r Hin. intros a x' t r' y l2 bo N B. apply bn_call_ok in B. destruct B as [U [l3 [B1 B2]]]. destruct t; [specialize (U eq_refl); rewrite (no_update l x' HS N) in U; discriminate|].
      split; [reflexivity|]. apply bnorm_forward_state in B2. destruct B2 as [_ [_ [_ [_ B2]]]]. destruct (B2 eq_refl) as [-> ->]. destruct a; [|congruence]. apply bn_adapt_state in B1. destruct B1 as [_ [-> ->]]. exact HS. }
    assert (HX' : forall x t r, In (BEager x t r) h \/ (exists n, In (BRun n x t r) h) -> shape x <> []).
    { intros x0 t0 r0 [H|[n H]]; apply (HX x0 t0 r0); [left; right; exact H|right; exists n; right; exact H]. }
    destruct e as [|n x0 t0 r0|x0 t0 r0]; cbn [bn_step] in E1.
    - assert (l1 = l) by congruence. subst l1. refine (IH _ _ _ HX' E x t r _); [exact HS|]. destruct Hin as [[H|H]|[n [H|H]]]; try discriminate; [left; exact H|right; eauto].
    - destruct (nth_error graphs n) as [a|]; [|discriminate]. apply rbind_ok in E1. destruct E1 as [[[y l2] bo] [B E1]]. cbn [fst snd] in E1. assert (l1 = l2) by congruence. subst l1.
      destruct (K _ _ _ _ _ _ _ (HX x0 t0 r0 (or_intror (ex_intro _ n (or_introl eq_refl)))) B) as [K1 K2]. subst t0.
      destruct Hin as [[H|H]|[n' [H|H]]]; [discriminate|exact (IH (l2, f1, g1) _ K2 HX' E x t r (or_introl H))|congruence|exact (IH (l2, f1, g1) _ K2 HX' E x t r (or_intror (ex_intro _ n' H)))].
    - apply rbind_ok in E1. destruct E1 as [[[y l2] bo] [B E1]]. cbn [fst snd] in E1. assert (l1 = l2) by congruence. subst l1.
      destruct (K _ _ _ _ _ _ _ (HX x0 t0 r0 (or_introl (or_introl eq_refl))) B) as [K1 K2]. subst t0.
      destruct Hin as [[H|H]|[n' [H|H]]]; [congruence|exact (IH (l2, f1, g1) _ K2 HX' E x t r (or_introl H))|discriminate|exact (IH (l2, f1, g1) _ K2 HX' E x t r (or_intror (ex_intro _ n' H)))].
  Qed.
End C.

Lemma build_off a dims kq paq l : bn_build a dims kq paq = Ok l -> ba_center a = false \/ ba_scale a = false -> shape (m_mean l) = [] \/ shape (m_var l) = [].
Proof.
  unfold bn_build. intros E H. apply rbind_ok in E. destruct E as [ax [_ E]]. destruct (existsb _ ax); [discriminate|].
  set (f := repeat (qz 1)) in E. set (g := repeat (qz 0)) in E. destruct H as [H|H]; rewrite H in E; [left|right]; apply (f_equal (fun r => match r with Ok l => Some l | Raise => None end)) in E.
  - apply (f_equal (option_map (fun l => shape (m_mean l)))) in E. cbn in E. congruence.
  - apply (f_equal (option_map (fun l => shape (m_var l)))) in E. cbn in E. congruence.
Qed.

(** ** Names of the weights *)

Local Open Scope string_scope.
Lemma split_colon u : forall w x y, ~ has_char ":" u -> ~ has_char ":" w -> u ++ String ":" x = w ++ String ":" y -> u = w.
Proof.
  induction u as [|c u IH]; intros [|d w] x y Hu Hw E; cbn in E; [reflexivity| | |].
  - exfalso. apply Hw. injection E as -> _. apply has_char_cons. left. reflexivity.
  - exfalso. apply Hu. injection E as -> _. apply has_char_cons. left. reflexivity.
  - injection E as -> E. f_equal. apply (IH w x y); [|  |exact E]; intros C; [apply Hu|apply Hw]; apply has_char_cons; right; exact C.
Qed.
Lemma has_char_app c a b : has_char c (a ++ b) -> has_char c a \/ has_char c b.
Proof.
  induction a as [|d a IH]; cbn; [tauto|]. rewrite !has_char_cons. tauto.
Qed.
Lemma append_eq_assoc (a b c : string) : (a ++ b) ++ c = a ++ (b ++ c).
Proof. induction a as [|d a IH]; cbn; [reflexivity|]. rewrite IH. reflexivity. Qed.
Lemma contains_suffix a u : ~ has_char ":" a -> ~ has_char ":" u -> contains (a ++ ":0") (u ++ ":0") = true -> exists v, u = v ++ a.
Proof.
  intros Ha Hu H. apply contains_iff in H. destruct H as [p [q E]]. exists p.
  assert (Hp : ~ has_char ":" p).
  { (* the only colon of u ++ ":0" stands behind u *)
    intros C. assert (G : forall u p r, ~ has_char ":" u -> has_char ":" p -> u ++ ":0" = p ++ r -> exists r', r' ++ r = "0").
    { clear. induction u as [|c u IH]; intros [|d p] r Hu Hp E.
      - destruct (has_char_nil ":" Hp).
      - cbn in E. injection E as <- E. exists p. symmetry. exact E.
      - destruct (has_char_nil ":" Hp).
      - cbn in E. injection E as <- E. apply (IH p r); [intros C; apply Hu, has_char_cons; right; exact C| |exact E].
        apply has_char_cons in Hp. destruct Hp as [Hp|Hp]; [exfalso; apply Hu, has_char_cons; left; exact Hp|exact Hp]. }
    destruct (G u p _ Hu C E) as [r' R]. rewrite append_eq_assoc in R.
    assert (HC : has_char ":" (r' ++ a ++ ":0" ++ q)) by (exists (r' ++ a), ("0" ++ q); rewrite append_eq_assoc; reflexivity).
    rewrite R in HC. apply has_char_cons in HC. destruct HC as [HC|HC]; [discriminate|exact (has_char_nil _ HC)]. }
  apply (split_colon u (p ++ a) "0" ("0" ++ q) Hu).
  - intros C. apply has_char_app in C. tauto.
  - rewrite E. rewrite !append_eq_assoc. reflexivity.
Qed.
Lemma los_app a b : list_ascii_of_string (a ++ b) = (list_ascii_of_string a ++ list_ascii_of_string b)%list.
Proof. induction a as [|c a IH]; cbn; [reflexivity|]. rewrite IH. reflexivity. Qed.
Lemma contains_other a p b : ~ has_char ":" a -> ~ has_char ":" p -> ~ has_char ":" b ->
  (forall v w, rev (list_ascii_of_string b) ++ v <> rev (list_ascii_of_string a) ++ w)%list ->
  contains (a ++ ":0") (p ++ b ++ ":0") = false.
Proof.
  intros Ha Hp Hb N. destruct (contains (a ++ ":0") (p ++ b ++ ":0")) eqn:C; [|reflexivity]. exfalso. rewrite <- append_eq_assoc in C.
  apply contains_suffix in C; [|exact Ha|intros D; apply has_char_app in D; tauto]. destruct C as [v C].
  apply (f_equal (fun s => rev (list_ascii_of_string s))) in C. rewrite !los_app, !rev_app_distr in C. exact (N _ _ C).
Qed.
Ltac no_colon := let C := fresh in intros C; repeat (apply has_char_cons in C; destruct C as [C|C]; [discriminate|]); exact (has_char_nil _ C).

Lemma no_keras_beta sname a l beta : ~ has_char ":" sname ->
  exists v, find (fun w => contains "beta:0" (fst w)) (bn_weights sname a l beta) = Some v /\
    (snd v = m_beta l /\ ba_center a = true \/ shape (snd v) = []).
Proof.
  intros Hs. unfold bn_weights. cbn [app].
  assert (O : forall b, ~ has_char ":" b -> (forall v w, rev (list_ascii_of_string b) ++ v <> rev (list_ascii_of_string "beta") ++ w)%list -> contains "beta:0" (sname ++ b ++ ":0") = false).
  { intros b Hb HN. change "beta:0" with ("beta" ++ ":0"). apply contains_other; [no_colon|exact Hs|exact Hb|exact HN]. }
  cbn [find fst]. change "kernel_bw:0" with ("kernel_bw" ++ ":0") at 1. rewrite O by (no_colon || (intros v w C; cbn in C; discriminate)).
  change "activation_bw:0" with ("activation_bw" ++ ":0") at 1. rewrite O by (no_colon || (intros v w C; cbn in C; discriminate)).
  destruct (ba_center a).
  - cbn [app find fst]. assert (T : contains "beta:0" (sname ++ "bn_beta:0") = true) by (apply contains_iff; exists (sname ++ "bn_"), ""; rewrite append_eq_assoc; reflexivity).
    rewrite T. eexists. split; [reflexivity|]. left. split; reflexivity.
  - cbn [app]. destruct (ba_scale a).
    + cbn [app find fst]. change "bn_gamma:0" with ("bn_gamma" ++ ":0") at 1. rewrite O by (no_colon || (intros v w C; cbn in C; discriminate)). cbn [contains prefix].
      eexists. split; [reflexivity|]. right. reflexivity.
    + eexists. split; [reflexivity|]. right. reflexivity.
Qed.

Lemma to_keras_raises sname k a l beta dims : ~ has_char ":" sname -> ~ has_char ":" k -> (ba_center a = true -> length (shape (m_beta l)) <> 1%nat) ->
  bn_to_keras sname (k ++ "/") a l beta dims = Raise.
Proof.
  intros Hs Hk HB. unfold bn_to_keras, copy_fused_weights. cbn [d_kernel d_bias copy_one rbind d_weights keras_bn s_weights]. set (sw := bn_weights sname a l beta). set (c := last dims 1%nat).
  set (n0 := ((k ++ "/") ++ "gamma:0")). set (n1 := ((k ++ "/") ++ "beta:0")). set (n2 := ((k ++ "/") ++ "moving_mean:0")). set (n3 := ((k ++ "/") ++ "moving_variance:0")).
  change (fold_left _ _ _) with (fold_left (cstep sw) [0; 1; 2; 3]%nat (Ok ([(n0, mkT [c] (repeat (qz 1) c)); (n1, mkT [c] (repeat (qz 0) c)); (n2, mkT [c] (repeat (qz 0) c)); (n3, mkT [c] (repeat (qz 1) c))], []))).
  cbn [fold_left].
  assert (S0 : cstep sw (Ok ([(n0, mkT [c] (repeat (qz 1) c)); (n1, mkT [c] (repeat (qz 0) c)); (n2, mkT [c] (repeat (qz 0) c)); (n3, mkT [c] (repeat (qz 1) c))], [])) 0%nat = Raise \/
    exists ws miss, cstep sw (Ok ([(n0, mkT [c] (repeat (qz 1) c)); (n1, mkT [c] (repeat (qz 0) c)); (n2, mkT [c] (repeat (qz 0) c)); (n3, mkT [c] (repeat (qz 1) c))], [])) 0%nat = Ok (ws, miss) /\ nth_error ws 1 = Some (n1, mkT [c] (repeat (qz 0) c))).
  { cbn [cstep rbind nth_error]. destruct (skipped n0); [right; eexists; eexists; split; reflexivity|]. destruct (get_weight sw n0) as [v|]; [|right; eexists; eexists; split; reflexivity].
    unfold assign. cbn [nth_error shape]. destruct (list_eq_dec _ _ _); [|left; reflexivity]. right. eexists. eexists. split; reflexivity. }
  assert (R : forall j, cstep sw Raise j = Raise) by reflexivity.
  destruct S0 as [->|[ws [miss [-> N]]]]; [rewrite !R; reflexivity|].
  assert (S1 : cstep sw (Ok (ws, miss)) 1%nat = Raise); [|rewrite S1, !R; reflexivity].
  cbn [cstep rbind]. rewrite N.
  assert (P : ~ has_char ":" (k ++ "/")) by (intros C; apply has_char_app in C; destruct C as [C|C]; [exact (Hk C)|]; revert C; no_colon).
  assert (SK : skipped n1 = false).
  { unfold skipped, n1. change "beta:0" with ("beta" ++ ":0"). change "kernel:0" with ("kernel" ++ ":0"). change "bias:0" with ("bias" ++ ":0").
    rewrite !contains_other; try reflexivity; try exact P; try no_colon; intros v w C; cbn in C; discriminate. }
  rewrite SK. unfold get_weight.
  assert (SN : search_name n1 = "beta:0").
  { unfold search_name, n1. rewrite append_eq_assoc, after_slash_app by no_colon. reflexivity. }
  rewrite SN. destruct (no_keras_beta sname a l beta Hs) as [v [F V]]. fold sw in F. rewrite F. cbn [rbind]. unfold assign. rewrite N. cbn [shape].
  destruct (list_eq_dec Nat.eq_dec [c] (shape (snd v))) as [C|_]; [|reflexivity]. exfalso. destruct V as [[V Hc]|V]; [|congruence]. rewrite V in C. apply (HB Hc). rewrite <- C. reflexivity.
Qed.
Local Close Scope string_scope.

(** ** The adaptation *)

Lemma clip_again e lo hi : (lo <= hi)%Qc -> clip_by_value (clip_ext e lo hi) lo hi = clip_ext e lo hi.
Proof.
  intros H. assert (C : forall v, (lo <= v)%Qc -> (v <= hi)%Qc -> clip_by_value v lo hi = v).
  { intros v H1 H2. unfold clip_by_value, qmin. destruct (qleb_spec v hi); [|exfalso; qlra]. unfold qmax. destruct (qleb_spec v lo); [apply Qcle_antisym; assumption|reflexivity]. }
  apply C; destruct e; unfold clip_ext, clip_by_value, qmax, qmin; repeat match goal with |- context [qleb ?a ?b] => destruct (qleb_spec a b) end; try assumption; try apply Qcle_refl; qlra.
Qed.

Lemma first_call rsqrt pw ln2 lg n1 n2 n3 l x t r l' f' g g' m p0 rest lo hi : let s := (p0 ++ rest)%list in
  wf_tensor x -> s = kept1 (axis_flags (length (shape x)) (m_axes l)) (shape x) -> shape (m_gamma l) = s -> shape (m_var l) = s ->
  prefix_skip (q_skip (m_kq l)) m -> length p0 = m -> reg_ok m rest (q_fbw (m_kq l)) -> q_clip (m_kq l) = Some (lo, hi) -> (lo <= hi)%Qc ->
  bn_step rsqrt pw ln2 lg n1 n2 n3 (l, true, g) (BEager x t r) = Ok (l', f', g') ->
  f' = false /\ exists ker, length (data ker) = prodn s /\
    (forall c, c < prodn s -> exists v, nth c (data ker) (qz 0) = (nth c (data (m_gamma l)) (qz 0) * rsqrt (v + m_eps l))%Qc /\
       (t = false -> v = nth c (data (m_var l)) (qz 0)) /\ (t = true -> Spec.BnStats.group_of s x c <> [] -> Spec.Norm.is_var (Spec.BnStats.group_of s x c) v)) /\
    forall k, k < prodn rest -> exists e, 
      least (fun b => exists w, in_group (prodn rest) k (data ker) w /\ w <> qz 0 /\ b = (nth k (data (q_fbw (m_kq l))) (qz 0) - lg (qabs w))%Qc) e /\
      nth k (data (q_fbw (m_kq l'))) (qz 0) = clip_ext e lo hi.
Proof.
  intros s W Hs Hg Hv Hp Hm HR HQ Hlh E. cbn [bn_step] in E. apply rbind_ok in E. destruct E as [[[y l2] bo] [B E]]. cbn [fst snd] in E.
  assert (l' = l2 /\ f' = false) as [-> ->] by (split; congruence). split; [reflexivity|]. apply bn_call_ok in B. destruct B as [_ [l1 [B1 B2]]].
  unfold bn_adapt in B1. apply rbind_ok in B1. destruct B1 as [var [E1 B1]]. apply rbind_ok in B1. destruct B1 as [ker [E2 B1]].
  apply rbind_ok in B1. destruct B1 as [tt [E3 B1]]. apply rbind_ok in B1. destruct B1 as [ff [E4 B1]].
  assert (V : shape var = s /\ forall c, c < prodn s -> (t = false -> nth c (data var) (qz 0) = nth c (data (m_var l)) (qz 0)) /\
     (t = true -> Spec.BnStats.group_of s x c <> [] -> Spec.Norm.is_var (Spec.BnStats.group_of s x c) (nth c (data var) (qz 0)))).
  { unfold bn_var in E1. destruct t.
    - destruct (tvar_spec (m_axes l) x W) as [v [EV [S2 [_ N2]]]]. rewrite <- Hs in S2, N2. assert (v = var) by congruence. subst v. split; [exact S2|]. intros c Hc. split; [discriminate|].
      intros _ NE. rewrite N2 by exact Hc. apply var_list_is, NE.
    - assert (var = m_var l) by congruence. subst var. split; [exact Hv|]. intros c _. split; [reflexivity|discriminate]. }
  destruct V as [Sv Nv]. unfold bn_ker in E2. destruct (bmap2_same (qz 0) (qz 0) (fun g v => (g * rsqrt (v + m_eps l))%Qc) (m_gamma l) var) as [k0 [Ek [Sk [Lk Nk]]]]; [congruence|].
  assert (k0 = ker) by congruence. subst k0. rewrite Hg in Sk, Lk, Nk. exists ker. split; [exact Lk|]. split.
  - intros c Hc. exists (nth c (data var) (qz 0)). split; [apply Nk; exact Hc|]. apply Nv, Hc.
  - destruct (adapt_spec lg (q_skip (m_kq l)) m p0 rest (q_fbw (m_kq l)) ker Hp Hm HR Sk ltac:(rewrite Sk; exact Lk)) as [nf [EA [RA NA]]].
    assert (nf = tt) by congruence. subst nf. rewrite HQ in E4. cbn [clipped] in E4. assert (EF : ff = tmap (fun e => clip_ext e lo hi) tt) by congruence.
    assert (EL : l1 = with_kq l (with_fbw (m_kq l) ff)) by congruence. apply bnorm_forward_state in B2. destruct B2 as [BK _]. rewrite BK, EL. cbn [with_kq m_kq]. unfold clip_fbw.
    assert (QC : q_clip (with_fbw (m_kq l) ff) = Some (lo, hi)) by (destruct (m_kq l); exact HQ). rewrite QC.
    intros k Hk. exists (nth k (data tt) PosInf). split; [apply NA; exact Hk|].
    assert (DD : q_fbw (with_fbw (with_fbw (m_kq l) ff) (tmap (fun f => clip_by_value f lo hi) (q_fbw (with_fbw (m_kq l) ff)))) = tmap (fun f => clip_by_value f lo hi) ff) by (destruct (m_kq l); reflexivity).
    rewrite DD, EF. cbn [tmap data]. rewrite map_map. rewrite (nth_indep _ (qz 0) (clip_by_value (clip_ext PosInf lo hi) lo hi)) by (rewrite map_length, (proj2 RA); exact Hk).
    rewrite (map_nth (fun e => clip_by_value (clip_ext e lo hi) lo hi)). apply clip_again, Hlh.
Qed.
