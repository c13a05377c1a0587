(** Facts about the batch-norm layers. *)
From Coq Require Import ZArith Qcanon List Bool Lia.
From Verif Require Import Base.Num Base.NumFacts Base.Tensor Model.Quantizer Model.Layers Model.BatchNorm
  Spec.Norm Proofs.TensorP Proofs.ShapeP Proofs.SampleP Proofs.QuantizerP.
Import ListNotations.
Local Open Scope nat_scope.

Lemma nth_map_indexed {A B} (f : nat * A -> B) (l : list A) d0 d j : j < length l ->
  nth j (map f (combine (seq 0 (length l)) l)) d = f (j, nth j l d0).
Proof.
  intros H. rewrite (nth_indep _ d (f (0, d0))) by (rewrite map_length, combine_length, seq_length; lia).
  rewrite (map_nth f), combine_nth by apply seq_length. rewrite seq_nth by exact H. reflexivity.
Qed.

Lemma nth_linop ts w x e ps : nth_error ts e = Some ps ->
  nth e (linop ts w x) (qz 0) = qsum (map (fun ab => nth (fst ab) x (qz 0) * nth (snd ab) w (qz 0))%Qc ps).
Proof.
  intros H. apply nth_error_nth. unfold linop. exact (map_nth_error _ e ts H).
Qed.
Lemma linop_length ts w x : length (linop ts w x) = length ts.
Proof. unfold linop. apply map_length. Qed.

Lemma nth_scale_kernel k s j : j < length (data k) ->
  nth j (data (scale_kernel k s)) (qz 0) = (nth j (data k) (qz 0) * s (Nat.modulo j (last (shape k) 1%nat)))%Qc.
Proof.
  intros H. unfold scale_kernel. cbn [data]. rewrite (nth_map_indexed _ _ (qz 0)) by exact H. reflexivity.
Qed.
Lemma nth_scale_kernel_all k s j :
  nth j (data (scale_kernel k s)) (qz 0) = (nth j (data k) (qz 0) * s (Nat.modulo j (last (shape k) 1%nat)))%Qc.
Proof.
  destruct (Nat.lt_ge_cases j (length (data k))) as [H|H]; [exact (nth_scale_kernel k s j H)|].
  rewrite (nth_overflow (data k)) by exact H. rewrite nth_overflow.
  - change (qz 0) with 0%Qc. ring.
  - unfold scale_kernel. cbn [data]. rewrite map_length, combine_length, seq_length. lia.
Qed.

Lemma qsum_scale {A} (f : A -> Qc) (c : Qc) l : qsum (map (fun a => f a * c)%Qc l) = (c * qsum (map f l))%Qc.
Proof. induction l as [|a l IH]; cbn; [change (qz 0) with 0%Qc; ring|]. unfold qsum in IH. cbn in IH. rewrite IH. ring. Qed.

Lemma linop_scaled ts k s loc out x e : channelled ts k loc out -> e < length ts ->
  nth e (linop ts (data (scale_kernel k s)) x) (qz 0) = (s (chan loc out e) * nth e (linop ts (data k) x) (qz 0))%Qc.
Proof.
  intros [_ H] He. destruct (nth_error ts e) as [ps|] eqn:E; [|apply nth_error_None in E; lia].
  rewrite !(nth_linop _ _ _ e ps E). rewrite <- qsum_scale. f_equal. apply map_ext_in. intros [a b] Hab.
  specialize (H e ps E). rewrite Forall_forall in H. specialize (H _ Hab). cbn [fst snd] in H |- *.
  rewrite nth_scale_kernel_all, H. ring.
Qed.

Lemma nth_bias_add loc out b z e : e < length z ->
  nth e (bias_add loc out b z) (qz 0) = (nth e z (qz 0) + nth (chan loc out e) b (qz 0))%Qc.
Proof.
  intros H. unfold bias_add. rewrite (nth_map_indexed _ _ (qz 0)) by exact H. reflexivity.
Qed.

Lemma nth_map_chans l (f : nat -> Qc) c : c < n_chan l -> nth c (map f (chans l)) (qz 0) = f c.
Proof. intros H. unfold chans. apply nth_map_seq. exact H. Qed.

(** The values of one channel. *)
Lemma chan_vals_spec loc out zs c : chan_vals loc out zs c = channel_values loc out zs c.
Proof.
  unfold chan_vals, channel_values. rewrite flat_map_concat_map. f_equal. apply map_ext. intros z.
  unfold in_channel.
  assert (G : forall l k, (forall i, nth i l (qz 0) = nth (k + i) z (qz 0)) -> 
    map snd (filter (fun ez => Nat.eqb (chan loc out (fst ez)) c) (combine (seq k (length l)) l)) =
    flat_map (fun e => if Nat.eqb (chan loc out e) c then [nth e z (qz 0)] else []) (seq k (length l))).
  { induction l as [|a l IH]; intros k H; [reflexivity|]. cbn [length seq combine filter flat_map fst].
    assert (IH' := IH (S k)). specialize (H). rewrite <- IH'.
    - pose proof (H 0) as H0. cbn in H0. rewrite Nat.add_0_r in H0. destruct (Nat.eqb (chan loc out k) c); [|reflexivity].
      cbn. rewrite H0. reflexivity.
    - intros i. specialize (H (S i)). cbn in H. rewrite H. f_equal. lia. }
  apply G. intros i. reflexivity.
Qed.

Lemma qsum_fold l : qsum l = fold_right Qcplus (qz 0) l.
Proof. reflexivity. Qed.

Lemma mean_list_spec l m : l <> [] -> is_mean l m -> mean_list l = m.
Proof.
  intros H E. unfold mean_list. rewrite qsum_fold, <- E. unfold Qcdiv.
  assert (N : qz (Z.of_nat (length l)) <> 0%Qc).
  { intros C. change 0%Qc with (qz 0) in C. apply qz_inj in C. destruct l; [congruence|cbn in C; lia]. }
  rewrite (Qcmult_comm (qz _) m), <- Qcmult_assoc, Qcmult_inv_r by exact N. ring.
Qed.
Lemma var_list_spec l v : l <> [] -> is_var l v -> var_list l = v.
Proof.
  intros H [m [M V]]. unfold var_list. rewrite (mean_list_spec l m H M). apply mean_list_spec; [|exact V].
  destruct l; [congruence|discriminate].
Qed.

(** Training values of a deterministic quantizer. *)
Lemma forward_det pw ln2 q x r noise : deterministic q ->
  forward pw ln2 q x true r noise = forward pw ln2 q x false r noise.
Proof.
  intros [E HS]. unfold forward. destruct (bmap2 _ _ _ _ _) as [vf|]; [|reflexivity]. cbn [rbind]. do 2 f_equal.
  apply map_ext. intros pvf. rewrite E. destruct HS as [-> | ->]; rewrite !forward_elem_xq; reflexivity.
Qed.
Lemma deterministic_clip q : deterministic q -> deterministic (clip_fbw q).
Proof. unfold clip_fbw. destruct (q_clip q) as [[lo hi]|]; intros H; exact H. Qed.
Lemma call_det pw ln2 q x r noise : deterministic q ->
  call pw ln2 q x true r noise = call pw ln2 q x false r noise.
Proof. intros H. unfold call. apply forward_det, deterministic_clip, H. Qed.
Lemma bias_forward_det pw ln2 q x loc noise : deterministic q ->
  bias_forward pw ln2 q x true loc noise = bias_forward pw ln2 q x false loc noise.
Proof.
  intros [E HS]. unfold bias_forward. destruct (bias_dims _ _) as [d|]; [|reflexivity]. cbn [rbind].
  destruct (bmap2 _ _ _ _ _) as [vf|]; [|reflexivity]. cbn [rbind]. f_equal. f_equal.
  apply map_ext. intros pvf. rewrite E. destruct HS as [-> | ->]; rewrite !forward_elem_xq; reflexivity.
Qed.
Lemma hforward_det pw ln2 l xs r nk nb na :
  deterministic (l_paq l) -> (forall ts k kq b bl, l_op l = Linear ts k kq b bl -> deterministic kq) ->
  hforward pw ln2 l xs true r nk nb na = hforward pw ln2 l xs false r nk nb na.
Proof.
  intros HP HK. unfold hforward.
  assert (E : pre_activation pw ln2 l xs true nk nb = pre_activation pw ln2 l xs false nk nb).
  { unfold pre_activation. destruct (l_op l) as [ts k kq b bl|g] eqn:EO; [|reflexivity].
    rewrite (call_det _ _ kq) by (eapply HK; reflexivity).
    destruct (call _ _ _ _ false false nk) as [wk|]; [|reflexivity]. cbn [rbind]. destruct b; [|reflexivity].
    rewrite bias_forward_det by exact HP. reflexivity. }
  rewrite E. clear E. destruct (pre_activation pw ln2 l xs false nk nb) as [zo|]; [|reflexivity]. cbn [rbind].
  rewrite call_det by exact HP. reflexivity.
Qed.

(** ** Training against inference *)

Lemma scale_kernel_ext k s1 s2 : 0 < last (shape k) 1 -> (forall c, c < last (shape k) 1 -> s1 c = s2 c) -> scale_kernel k s1 = scale_kernel k s2.
Proof.
  intros Hp H. unfold scale_kernel. f_equal. apply map_ext. intros [j w]. cbn [fst snd]. rewrite H; [reflexivity|].
  apply Nat.mod_upper_bound. lia.
Qed.

Lemma moving_same m x : moving m x x = x.
Proof. unfold moving. change (qz 1) with 1%Qc. ring. Qed.

Lemma map_nth_seq (l : list Qc) n : length l = n -> map (fun c => nth c l (qz 0)) (seq 0 n) = l.
Proof.
  intros H. apply nth_ext with (d := qz 0) (d' := qz 0).
  - rewrite map_length, seq_length. congruence.
  - intros i Hi. rewrite map_length, seq_length in Hi. rewrite nth_map_seq by exact Hi. reflexivity.
Qed.

Lemma train_inference rsqrt pw ln2 l xs r nk nb na : same_mode l -> stats_match l xs ->
  match bn_train rsqrt pw ln2 l xs r nk nb na, hforward pw ln2 (bn_hlayer rsqrt l) xs true r nk nb na with
  | Ok (ys, l'), Ok (ys', h') => ys = ys' /\ h' = bn_hlayer rsqrt l' /\ b_mean l' = b_mean l /\ b_var l' = b_var l
  | Raise, Raise => True
  | _, _ => False
  end.
Proof.
  intros (Hn & HM & HV & HB) HS.
  set (zs := map (fun x => linop (b_ts l) (data (b_kernel l)) (hd [] x)) xs) in *.
  assert (EV : forall c, b_scale l = true -> c < n_chan l -> var_list (chan_vals (b_loc l) (b_out l) zs c) = nth c (b_var l) (qz 0)).
  { intros c SC Hc. destruct (HS c Hc) as (N & _ & V). rewrite chan_vals_spec. apply var_list_spec; [exact N|exact (V SC)]. }
  destruct (b_bias l) as [b|] eqn:EB.
  - destruct HB as (HCe & HSc & HL & HZ).
    assert (EM : forall c, c < n_chan l -> (mean_list (chan_vals (b_loc l) (b_out l) zs c) + nth c (data b) (qz 0))%Qc = nth c (b_mean l) (qz 0)).
    { intros c Hc. destruct (HS c Hc) as (N & M & _). destruct (M HCe) as (b' & m & Eb' & M' & ->).
      assert (b' = b) by congruence. subst b'. rewrite chan_vals_spec. unfold zs. rewrite (mean_list_spec _ m N M'). reflexivity. }
    unfold bn_train, hforward, pre_activation, bn_hlayer. cbn [l_op l_paq l_relu l_loc l_out]. rewrite EB, HCe, HSc. cbn [rbind fst snd option_map].
    fold zs. 
    assert (EK : scale_kernel (b_kernel l) (fun c => (nth c (b_gamma l) (qz 0) * rsqrt (var_list (chan_vals (b_loc l) (b_out l) zs c) + b_eps l))%Qc) = bn_fused_kernel rsqrt l).
    { unfold bn_fused_kernel. rewrite HSc. apply scale_kernel_ext; [exact Hn|]. intros c Hc. unfold bn_scale, gamma_of, var_of. rewrite HSc, EV by assumption. reflexivity. }
    rewrite EK. destruct (call pw ln2 (b_kq l) (bn_fused_kernel rsqrt l) true false nk) as [wk|]; [|exact I]. cbn [rbind fst snd].
    assert (EBI : mkT [n_chan l] (map (fun c => (nth c (data b) (qz 0) - (mean_list (chan_vals (b_loc l) (b_out l) zs c) + nth c (data b) (qz 0)) *
        (nth c (b_gamma l) (qz 0) * rsqrt (var_list (chan_vals (b_loc l) (b_out l) zs c) + b_eps l)))%Qc) (chans l)) = bn_fused_bias rsqrt l b).
    { unfold bn_fused_bias. rewrite HCe. f_equal. apply map_ext_in. intros c Hc. unfold chans in Hc. apply in_seq in Hc.
      unfold mean_of, beta_of, bn_scale, gamma_of, var_of. rewrite HCe, HSc, EM, EV, HZ by (assumption || lia). change (qz 0) with 0%Qc. ring. }
    rewrite EBI, HL. destruct (bias_forward pw ln2 (b_paq l) (bn_fused_bias rsqrt l b) true (b_loc l) nb) as [qb|]; [|exact I]. cbn [rbind fst snd].
    destruct (call pw ln2 (b_paq l) _ true r na) as [yq|]; [|exact I]. cbn [rbind fst snd].
    assert (EMM : map (fun c => moving (b_momentum l) (nth c (b_mean l) (qz 0)) (mean_list (chan_vals (b_loc l) (b_out l) zs c) + nth c (data b) (qz 0))%Qc) (chans l) = b_mean l).
    { etransitivity; [|exact (map_nth_seq (b_mean l) _ HM)]. apply map_ext_in. intros c Hc. unfold chans in Hc. apply in_seq in Hc. rewrite EM by lia. apply moving_same. }
    assert (EVV : map (fun c => moving (b_momentum l) (nth c (b_var l) (qz 0)) (var_list (chan_vals (b_loc l) (b_out l) zs c))) (chans l) = b_var l).
    { etransitivity; [|exact (map_nth_seq (b_var l) _ HV)]. apply map_ext_in. intros c Hc. unfold chans in Hc. apply in_seq in Hc. rewrite EV by (assumption || lia). apply moving_same. }
    rewrite EMM, EVV. split; [reflexivity|]. split; [|split; reflexivity].
    unfold bn_fused_kernel, bn_fused_bias, bn_scale, gamma_of, beta_of, mean_of, var_of, chans, n_chan. cbn. rewrite ?HCe, ?HSc, ?HL. reflexivity.
  - unfold bn_train, hforward, pre_activation, bn_hlayer. cbn [l_op l_paq l_relu l_loc l_out]. rewrite EB, HB. cbn [option_map].
    destruct (b_scale l) eqn:HSc.
    + cbn [rbind fst snd]. fold zs.
      assert (EK : scale_kernel (b_kernel l) (fun c => (nth c (b_gamma l) (qz 0) * rsqrt (var_list (chan_vals (b_loc l) (b_out l) zs c) + b_eps l))%Qc) = bn_fused_kernel rsqrt l).
      { unfold bn_fused_kernel. rewrite HSc. apply scale_kernel_ext; [exact Hn|]. intros c Hc. unfold bn_scale, gamma_of, var_of. rewrite HSc, EV by (assumption || reflexivity). reflexivity. }
      rewrite EK. destruct (call pw ln2 (b_kq l) (bn_fused_kernel rsqrt l) true false nk) as [wk|]; [|exact I]. cbn [rbind fst snd].
      destruct (call pw ln2 (b_paq l) _ true r na) as [yq|]; [|exact I]. cbn [rbind fst snd].
      assert (EVV : map (fun c => moving (b_momentum l) (nth c (b_var l) (qz 0)) (var_list (chan_vals (b_loc l) (b_out l) zs c))) (chans l) = b_var l).
      { etransitivity; [|exact (map_nth_seq (b_var l) _ HV)]. apply map_ext_in. intros c Hc. unfold chans in Hc. apply in_seq in Hc. rewrite EV by (reflexivity || lia). apply moving_same. }
      rewrite EVV. split; [reflexivity|]. split; [|split; reflexivity].
      unfold bn_fused_kernel, bn_fused_bias, bn_scale, gamma_of, beta_of, mean_of, var_of, chans, n_chan. cbn. rewrite HSc. reflexivity.
    + assert (EK : bn_fused_kernel rsqrt l = b_kernel l) by (unfold bn_fused_kernel; rewrite HSc; reflexivity). rewrite EK.
      destruct (call pw ln2 (b_kq l) (b_kernel l) true false nk) as [wk|]; [|exact I]. cbn [rbind fst snd].
      destruct (call pw ln2 (b_paq l) _ true r na) as [yq|]; [|exact I]. cbn [rbind fst snd].
      split; [reflexivity|]. split; [|split; reflexivity].
      unfold bn_fused_kernel. cbn. reflexivity.
Qed.

(** ** The standalone layer *)
Lemma bshape_comm : forall a b, bshape a b = bshape b a.
Proof.
  induction a as [|x a IH]; intros [|y b]; cbn; try reflexivity. rewrite IH. destruct (bshape b a); [|reflexivity].
  destruct (Nat.eqb_spec x y) as [->|N]; [rewrite Nat.eqb_refl; reflexivity|].
  destruct (Nat.eqb_spec y x) as [E|_]; [congruence|].
  destruct (Nat.eqb_spec x 1), (Nat.eqb_spec y 1); congruence.
Qed.
Lemma broadcast_eq_rank a b : length a = length b -> broadcast_shape a b = bshape a b.
Proof. intros H. unfold broadcast_shape. rewrite !pad_to_eq by lia. reflexivity. Qed.

Lemma bnorm_z_value rsqrt l mean var x s :
  shape (m_gamma l) = s -> shape (m_beta l) = s -> shape mean = s -> shape var = s -> bshape s (shape x) = Some (shape x) ->
  exists z, bnorm_z rsqrt l Ok Ok mean var x = Ok z /\ shape z = shape x /\ length (data z) = prodn (shape x) /\
    forall p, p < prodn (shape x) -> let c := bidx s (shape x) p in
      let ker := (nth c (data (m_gamma l)) (qz 0) * rsqrt (nth c (data var) (qz 0) + m_eps l))%Qc in
      nth p (data z) (qz 0) = (ker * nth p (data x) (qz 0) + (nth c (data (m_beta l)) (qz 0) - nth c (data mean) (qz 0) / ker))%Qc.
Proof.
  intros Eg Eb Em Ev Hb. unfold bnorm_z.
  destruct (bmap2_same (qz 0) (qz 0) (fun g v => (g * rsqrt (v + m_eps l))%Qc) (m_gamma l) var) as (ker & -> & S1 & L1 & N1); [congruence|]. cbn [rbind].
  destruct (bmap2_same (qz 0) (qz 0) Qcdiv mean ker) as (mk & -> & S2 & L2 & N2); [congruence|]. cbn [rbind].
  destruct (bmap2_same (qz 0) (qz 0) Qcminus (m_beta l) mk) as (bias & -> & S3 & L3 & N3); [congruence|]. cbn [rbind].
  destruct (bshape_length _ _ _ Hb) as [LL _].
  assert (Sk : shape ker = s) by congruence. assert (Sb : shape bias = s) by congruence.
  destruct (bmap2 (qz 0) (qz 0) Qcmult ker x) as [kx|] eqn:EK.
  2:{ unfold bmap2 in EK. rewrite Sk, broadcast_eq_rank, Hb in EK by exact LL. discriminate. }
  destruct (bmap2_ok _ _ _ _ _ _ EK) as (B4 & L4 & N4). rewrite Sk, broadcast_eq_rank, Hb in B4 by exact LL.
  assert (S4 : shape kx = shape x) by congruence. cbn [rbind].
  destruct (bmap2 (qz 0) (qz 0) Qcplus kx bias) as [z|] eqn:EZ.
  2:{ unfold bmap2 in EZ. rewrite Sb, S4, broadcast_eq_rank, bshape_comm, Hb in EZ by congruence. discriminate. }
  destruct (bmap2_ok _ _ _ _ _ _ EZ) as (B5 & L5 & N5). rewrite Sb, S4, broadcast_eq_rank, bshape_comm, Hb in B5 by congruence.
  assert (S5 : shape z = shape x) by congruence.
  exists z. split; [reflexivity|]. split; [exact S5|]. split; [congruence|]. intros p Hp. cbv zeta.
  rewrite N5 by congruence. rewrite S5, S4, Sb. rewrite pad_to_eq by congruence. rewrite (pad_to_eq _ s) by congruence.
  rewrite bidx_self by exact Hp. rewrite N4 by congruence. rewrite S4, Sk, (pad_to_eq _ s), (pad_to_eq _ (shape x)) by congruence. rewrite bidx_self by exact Hp.
  assert (HI : bidx s (shape x) p < prodn s) by (apply bidx_lt; [rewrite bshape_comm; exact Hb|exact Hp]). rewrite N3 by congruence. rewrite N2 by congruence. rewrite N1 by congruence. reflexivity.
Qed.
