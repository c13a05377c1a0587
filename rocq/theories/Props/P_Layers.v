(** Properties C27 (deployed value), C28-C31: HGQ layers and their proxies
    (src/HGQ/layers/base.py, dense.py, conv.py, misc.py, src/HGQ/proxy/convert.py). *)
From Coq Require Import ZArith QArith Qcanon List Bool String Lia.
From Verif Require Import Base.Num Base.NumFacts Base.Tensor Base.Compute Model.FixedPoint Model.Quantizer Model.Layers
  Spec.Fixed Spec.Quant Spec.Layer Proofs.FixedPointP Proofs.TensorP Proofs.QuantizerP Proofs.RecordP Proofs.BitsP
  Proofs.SampleP Proofs.ProxyElemP Proofs.LayersP.
Import ListNotations.
Local Open Scope string_scope.
Local Open Scope Z_scope.

(** Concrete layers used in the examples below: a dense layer with two inputs
    and two outputs, per-channel bitwidths (2 and 1 fractional bits). *)
Definition ex_paq (strategy : Z) : hgq :=
  hgq_build (mkT [1; 2]%nat [qz 2; qz 1]) (Some [0]) strategy true (Some (qz (-23), qz 23)).
Definition ex_kq : hgq := hgq_build (mkT [1; 1]%nat [qz 3]) None 0 true None.
Definition ex_dense (relu : bool) (strategy : Z) : hlayer :=
  mkL (Linear [[(0, 0); (1, 2)]; [(0, 1); (1, 3)]]%nat
         (mkT [2; 2]%nat [Q2Qc (1 # 3); Q2Qc (-5 # 7); Q2Qc (9 # 8); qz 1]) ex_kq
         (Some (mkT [2]%nat [Q2Qc (1 # 3); Q2Qc (-1 # 5)])) (-1))
      (ex_paq strategy) relu (-1) [2]%nat.
Definition ex_data : list (list (list Qc)) :=
  [[[qz 1; Q2Qc (1 # 2)]]; [[Q2Qc (-3 # 2); Q2Qc (1 # 8)]]; [[qz 0; qz 2]]].
Definition flat (r : result (list (list Qc))) : result (list Qc) := rbind r (fun ys => Ok (concat ys)).
Definition zn : nat -> Qc := fun _ => qz 0.
Definition ex_run pw ln2 (relu : bool) (strategy : Z) : result hlayer :=
  rbind (hforward pw ln2 (ex_dense relu strategy) ex_data false true zn zn zn) (fun yl => Ok (snd yl)).
(** The same layer after calibration on [ex_data]: registers [-1/4, 5/2] and [0, 2]. *)
Definition ex_cal (relu : bool) (strategy : Z) : hlayer :=
  let l := ex_dense relu strategy in
  mkL (l_op l) (with_minmax (l_paq l) (mkT [1; 2]%nat [Fin (Q2Qc (-1 # 4)); Fin (qz 0)])
                                      (mkT [1; 2]%nat [Fin (Q2Qc (5 # 2)); Fin (qz 2)])) relu (-1) [2]%nat.
Example ex_cal_registers : forall pw ln2,
  rbind (ex_run pw ln2 true 0) (fun l => Ok (map (fin (qz 77)) (data (q_min (l_paq l)) ++ data (q_max (l_paq l)))))
  = Ok (map (fin (qz 77)) (data (q_min (l_paq (ex_cal true 0))) ++ data (q_max (l_paq (ex_cal true 0))))).
Proof. qvm. Qed.
Lemma nearest_even_qz z : nearest_even (qz z) z.
Proof. rewrite <- (qround_even_qz z) at 2. apply nearest_even_ex. Qed.
Lemma ex_cal_ok relu strategy : layer_ok (ex_cal relu strategy) /\ bits_clipped (l_paq (ex_cal relu strategy)) /\
  calibrated (l_paq (ex_cal relu strategy)).
Proof.
  split; [|split].
  - split; [|split; [cbn; lia|]].
    + exists [2%nat]. repeat split.
    + split; [reflexivity|]. split; [eexists; reflexivity|]. split; [reflexivity|]. exists 2%nat. split; [lia|]. split; [reflexivity|].
      left. split; [reflexivity|]. exists []. reflexivity.
  - cbn. repeat constructor; vm_compute; discriminate.
  - intros g Hg. cbn in Hg. destruct g as [|[|g]]; [| |lia].
    + exists 2, (Q2Qc (-1 # 4)), (Q2Qc (5 # 2)). split; [apply nearest_even_qz|]. split; [lia|]. do 2 (split; [reflexivity|]).
      split; [exists (-1); qvm|]. split; [exists 10; qvm|]. repeat split; vm_compute; congruence.
    + exists 1, (qz 0), (qz 2). split; [apply nearest_even_qz|]. split; [lia|]. do 2 (split; [reflexivity|]).
      split; [exists 0; qvm|]. split; [exists 4; qvm|]. repeat split; vm_compute; congruence.
Qed.

(** ** C28: pre-biased truncation equals round-to-nearest *)

(** At the quantizer: for every format, overflow mode and input. *)
Theorem C28_truncating_prebiased_is_rounding : forall k b i S z,
  gfixed_quantizer (z + pow2 (i - b - 1))%Qc k b i "TRN" S = gfixed_quantizer z k b i "RND" S.
Proof.
  intros k b i S z. unfold gfixed_quantizer. destruct (SAT_MAP S) as [sat|]; [|reflexivity]. cbn. f_equal. unfold gfixed_elem. cbv zeta.
  assert (E : TRN ((z + pow2 (i - b - 1)) * pow2 (b - i))%Qc = RND (z * pow2 (b - i))%Qc); [|rewrite E; reflexivity].
  unfold TRN, RND. do 2 f_equal. rewrite Qcmult_plus_distr_l. f_equal. rewrite <- pow2_add. replace (i - b - 1 + (b - i)) with (-1) by lia. reflexivity.
Qed.
Print Assumptions C28_truncating_prebiased_is_rounding.

(** At the layer: the bias absorbs the rounding.  The proxy truncates; the
    number it truncates is the HGQ pre-activation value plus half a step; and
    truncating it gives, at every input, what HGQ gets by rounding to nearest. *)
Theorem C28_layer_prebias : forall pw ln2 l abw, layer_ok l -> bits_clipped (l_paq l) ->
  can_bias_cover_rnd l = true -> q_strategy (l_paq l) <> 3 -> act_bw l = Ok abw ->
  rnd_mode l = "TRN" /\ exists g, keras_op pw ln2 l = Ok g /\
  forall xs record nk nb na zs op' ys l',
    pre_activation pw ln2 l xs false nk nb = Ok (zs, op') ->
    hforward pw ln2 (no_relu l) xs false record nk nb na = Ok (ys, l') ->
    forall j x z y e r, nth_error xs j = Some x -> nth_error zs j = Some z -> nth_error ys j = Some y ->
      (e < prodn (l_out l))%nat -> 0 < nth e (data abw) 0 -> frac_bits (l_paq l) (group_of (l_paq l) (l_out l) e) r ->
      nth e (g x) (qz 0) = (nth e z (qz 0) + pow2 (- r - 1))%Qc /\
      round_on_grid r (nth e z (qz 0)) (nth e y (qz 0)) /\
      floor_on_grid r (nth e (g x) (qz 0)) (nth e y (qz 0)).
Proof.
  intros pw ln2 l abw HL HB HC HS EA.
  assert (S3 : Z.eqb (q_strategy (l_paq l)) 3 = false) by (apply Z.eqb_neq, HS).
  split. { unfold rnd_mode. rewrite HC, S3. reflexivity. }
  destruct (op_spec pw ln2 l HL) as [zf [g [op0 [EP [EK Hzg]]]]]. exists g. split; [exact EK|].
  intros xs record nk nb na zs op' ys l' Ez Ey j x z y e r Hx Hz Hy He Ha Hr.
  rewrite EP in Ez. injection Ez as Ez _. subst zs.
  apply (hforward_samples pw ln2 (no_relu l) xs record nk nb na ys l' zf op0 (proj1 HL)) in Ey; [|apply EP|intros v; apply Hzg].
  destruct Ey as [Ey _]. cbn [no_relu l_paq l_out l_relu] in Ey. rewrite (clip_id_fbw _ HB) in Ey. subst ys.
  rewrite nth_error_map, Hx in Hz, Hy. cbn in Hz, Hy. injection Hz as <-. injection Hy as <-.
  destruct (act_bw_spec l (proj1 HL)) as [t [Et [_ [_ Ht]]]]. rewrite EA in Et. injection Et as <-. rewrite Ht in Ha by exact He.
  assert (Er : r = qround_even (nth (group_of (l_paq l) (l_out l) e) (data (q_fbw (l_paq l))) (qz 0))) by (apply nearest_even_fun, Hr).
  destruct (Hzg x) as [_ [_ Hv]]. rewrite (Hv e He Ha). rewrite qsample_nth by exact He.
  assert (ES : shift_at l e = pow2 (- r - 1)) by (unfold shift_at; rewrite HC, S3, <- Er; reflexivity).
  rewrite ES. split; [reflexivity|].
  assert (R : round_on_grid r (nth e (zf x) (qz 0)) (qval (q_strategy (l_paq l)) (nth (group_of (l_paq l) (l_out l) e) (data (q_fbw (l_paq l))) (qz 0)) (nth e (zf x) (qz 0))))
    by (apply (qval_spec (q_strategy (l_paq l)) _ _ r Er), HS).
  split; [exact R|apply prebias, R].
Qed.
Print Assumptions C28_layer_prebias.

Example C28_ex : can_bias_cover_rnd (ex_cal true 0) = true /\ rbind (act_bw (ex_cal true 0)) (fun t => Ok (data t)) = Ok [4; 3].
Proof. split; reflexivity. Qed.
Example C28_ex_bias : forall pw ln2,
  rbind (bias_forward pw ln2 (ex_paq 0) (mkT [2]%nat [Q2Qc (1 # 3); Q2Qc (-1 # 5)]) false (-1) zn) (fun t => Ok (data t))
    = Ok [Q2Qc (1 # 4); qz 0] /\
  rbind (fused_qbias pw ln2 (ex_cal true 0) (mkT [2]%nat [Q2Qc (1 # 3); Q2Qc (-1 # 5)])) (fun t => Ok (data t))
    = Ok [Q2Qc (3 # 8); Q2Qc (1 # 4)].
Proof. intros; split; qvm. Qed.

(** ** C27: the deployed bias is the bias used by forward (plus the rounding shift of C28). *)
Theorem C27_deployed_bias : forall pw ln2 l ts kernel kq b abw, layer_ok l ->
  l_op l = Linear ts kernel kq (Some b) (l_loc l) -> act_bw l = Ok abw ->
  exists fb db, (forall noise, bias_forward pw ln2 (l_paq l) b false (l_loc l) noise = Ok fb) /\ fused_qbias pw ln2 l b = Ok db /\
  forall e r, (e < prodn (l_out l))%nat -> 0 < nth e (data abw) 0 -> frac_bits (l_paq l) (group_of (l_paq l) (l_out l) e) r ->
    nth (chan (l_loc l) (l_out l) e) (data db) (qz 0) =
    (nth (chan (l_loc l) (l_out l) e) (data fb) (qz 0) +
     if (negb (Z.eqb (q_strategy (l_paq l)) 3) && can_bias_cover_rnd l)%bool then pow2 (- r - 1) else qz 0)%Qc.
Proof.
  intros pw ln2 l ts kernel kq b abw HL EO EA. pose proof HL as [Hq [NZ HO]]. rewrite EO in HO.
  destruct HO as [_ [_ [_ [c [Hc [Hb HX]]]]]].
  pose proof (chan_axis_layer l c HX) as CA.
  destruct (chan_facts _ _ _ CA NZ) as [dims [ED _]].
  assert (ED' : bias_dims (l_loc l) (List.length (shape (q_fbw (l_paq l)))) = Ok dims).
  { destruct Hq as [bw [Hs [Hbb _]]]. rewrite Hs. apply bshape_length in Hbb. cbn [List.length]. destruct Hbb as [<- _]. exact ED. }
  destruct (fused_qbias_spec pw ln2 l ts kernel kq b _ c dims EO Hq CA NZ ED' Hb) as [qb [EQ [_ [_ HV]]]].
  eexists _, qb. split; [intros noise; apply (bias_forward_val pw ln2 (l_paq l) b (l_loc l) c (l_out l) noise dims); assumption|].
  split; [exact EQ|]. intros e r He Ha Hr.
  destruct (act_bw_spec l Hq) as [t [Et [_ [_ Ht]]]]. rewrite EA in Et. injection Et as <-. rewrite Ht in Ha by exact He.
  rewrite (HV e He Ha). cbn [data]. f_equal. unfold shift_at. rewrite <- (nearest_even_fun _ _ Hr). reflexivity.
Qed.
Print Assumptions C27_deployed_bias.

(** ** C29: masked bias *)

(** A position whose act_bw is 0 (the ones [fused_qbias] masks are channels
    where this holds everywhere) has derived width 0; the proxy output is 0
    there for every input whatever the bias; and the HGQ layer's output is 0
    there whenever its quantized value is in the recorded range. *)
Theorem C29_masked_positions_are_zero : forall pw ln2 l S abw e, layer_ok l -> bits_clipped (l_paq l) -> calibrated (l_paq l) ->
  S = "WRAP" \/ S = "SAT" -> act_bw l = Ok abw -> (e < prodn (l_out l))%nat -> nth e (data abw) 0 <= 0 ->
  (exists bits, get_bits_exact (l_paq l) (l_relu l) = Ok bits /\ nth (group_of (l_paq l) (l_out l) e) bits (1, 1, 1) = (0, 0, 0)) /\
  (exists p, to_proxy pw ln2 l S = Ok p /\ forall xs ys, pcall p xs = Ok ys -> Forall (fun y => nth e y (qz 1) = qz 0) ys) /\
  (forall xs record nk nb na pre l1 ys l2,
     hforward pw ln2 (no_relu l) xs false record nk nb na = Ok (pre, l1) -> Forall (in_range (l_paq l) (l_out l)) pre ->
     hforward pw ln2 l xs false record nk nb na = Ok (ys, l2) -> Forall (fun y => nth e y (qz 1) = qz 0) ys).
Proof.
  intros pw ln2 l S abw e HL HB HC HS EA He Ha. pose proof HL as [Hq [NZ _]].
  destruct (act_bw_spec l Hq) as [t [Et [_ [_ Ht]]]]. rewrite EA in Et. injection Et as <-. rewrite Ht in Ha by exact He.
  destruct (masked_bits l e HC Hq He Ha) as [r [mn [mx [Er [E1 [E2 [EB [Mx Mn]]]]]]]].
  pose proof (group_lt _ _ e Hq He) as GL.
  destruct (op_spec pw ln2 l HL) as [zf [g [op0 [EP [EK Hzg]]]]].
  split; [|split].
  - destruct (get_bits_at (l_paq l) (l_out l) (l_relu l) Hq HC) as [bits [EBits [LB NB]]]. exists bits. split; [exact EBits|].
    rewrite NB by exact GL. exact EB.
  - destruct (proxy_samples pw ln2 l S g HL HC HS EK (fun x => proj1 (proj2 (Hzg x)))) as [sat [bf [p [Hsat [LBf [HBf [EPx PC]]]]]]].
    exists p. split; [exact EPx|]. intros xs ys E. rewrite PC in E. injection E as <-. rewrite Forall_map, Forall_forall. intros x _.
    rewrite (nth_indep _ _ (qz 0)) by (rewrite psample_length; exact He). rewrite psample_nth by exact He. unfold pval.
    destruct (l_relu l) eqn:ER; rewrite EB, init_kbi_zero; apply zero_width_relu; reflexivity.
  - intros xs record nk nb na pre l1 ys l2 Epre R Eys.
    apply (hforward_samples pw ln2 (no_relu l) xs record nk nb na pre l1 zf op0 Hq) in Epre; [|apply EP|intros v; apply Hzg].
    destruct Epre as [Epre _]. cbn [no_relu l_paq l_out l_relu] in Epre. rewrite (clip_id_fbw _ HB) in Epre. subst pre.
    apply (hforward_samples pw ln2 l xs record nk nb na ys l2 zf op0 Hq) in Eys; [|apply EP|intros v; apply Hzg].
    destruct Eys as [Eys _]. rewrite (clip_id_fbw _ HB) in Eys. subst ys.
    rewrite Forall_map, Forall_forall in *. intros x Hx. specialize (R _ Hx e He).
    destruct R as [mn' [mx' [E1' [E2' [Lo Hi]]]]]. rewrite E1 in E1'. injection E1' as <-. rewrite E2 in E2'. injection E2' as <-.
    destruct (l_relu l) eqn:ER.
    + rewrite (nth_indep _ _ (relu (qz 0))) by (rewrite map_length, qsample_length; exact He). rewrite (map_nth relu).
      apply relu_nonpos. apply (Qcle_trans _ mx); assumption.
    + rewrite (nth_indep _ _ (qz 0)) by (rewrite qsample_length; exact He). rewrite (Mn eq_refl) in Lo.
      apply Qcle_antisym; [apply (Qcle_trans _ mx); assumption|exact Lo].
Qed.
Print Assumptions C29_masked_positions_are_zero.

(** A channel is masked exactly when the width is 0 at all its positions: if
    some position has a positive width, its bias is kept (C27_deployed_bias). *)
Definition ex_masked : hlayer :=
  mkL (l_op (ex_dense true 0)) (with_minmax (ex_paq 0) (mkT [1; 2]%nat [Fin (qz (-1)); Fin (qz 0)])
         (mkT [1; 2]%nat [Fin (Q2Qc (-1 # 4)); Fin (qz 2)])) true (-1) [2]%nat.
Example C29_ex : forall pw ln2,
  rbind (act_bw ex_masked) (fun t => Ok (data t)) = Ok [0; 3] /\
  rbind (fused_qbias pw ln2 ex_masked (mkT [2]%nat [Q2Qc (1 # 3); Q2Qc (-1 # 5)])) (fun t => Ok (data t)) = Ok [qz 0; Q2Qc (1 # 4)] /\
  flat (rbind (to_proxy pw ln2 ex_masked "WRAP") (fun p => pcall p ex_data)) = Ok [qz 0; qz 0; qz 0; Q2Qc (3 # 2); qz 0; qz 2].
Proof. intros; split; [reflexivity|split; qvm]. Qed.

(** ** C30: layers without ReLU *)
Theorem C30_linear_layer_proxy : forall pw ln2 l S, layer_ok l -> l_relu l = false ->
  bits_clipped (l_paq l) -> calibrated (l_paq l) -> S = "WRAP" \/ S = "SAT" ->
  exists p, to_proxy pw ln2 l S = Ok p /\ forall xs record nk nb na ys l',
    hforward pw ln2 l xs false record nk nb na = Ok (ys, l') ->
    Forall (in_range (l_paq l) (l_out l)) ys -> pcall p xs = Ok ys.
Proof.
  intros pw ln2 l S HL HR HB HC HS. destruct (layer_proxy pw ln2 l S HL HB HC HS) as [p [EP H]]. exists p. split; [exact EP|].
  intros xs record nk nb na ys l' E R. destruct (H xs) as [_ H']. rewrite HR in H'. apply (H' record nk nb na ys l'); [|exact R].
  destruct l as [op q re loc out]. cbn in HR. subst re. exact E.
Qed.
Print Assumptions C30_linear_layer_proxy.

Example C30_ex : forall pw ln2,
  flat (rbind (hforward pw ln2 (ex_cal false 0) ex_data false false zn zn zn) (fun yl => Ok (fst yl)))
    = Ok [Q2Qc (5 # 4); qz 0; Q2Qc (-1 # 4); Q2Qc (3 # 2); Q2Qc (5 # 2); qz 2] /\
  flat (rbind (to_proxy pw ln2 (ex_cal false 0) "WRAP") (fun p => pcall p ex_data))
    = Ok [Q2Qc (5 # 4); qz 0; Q2Qc (-1 # 4); Q2Qc (3 # 2); Q2Qc (5 # 2); qz 2].
Proof. intros; split; qvm. Qed.

(** C31: layers with ReLU.  [pre] are the quantized values before the ReLU. *)
Theorem C31_relu_layer_proxy : forall pw ln2 l S, layer_ok l -> l_relu l = true ->
  bits_clipped (l_paq l) -> calibrated (l_paq l) -> S = "WRAP" \/ S = "SAT" ->
  exists p, to_proxy pw ln2 l S = Ok p /\ forall xs record nk nb na pre l1 ys l2,
    hforward pw ln2 (no_relu l) xs false record nk nb na = Ok (pre, l1) ->
    Forall (in_range (l_paq l) (l_out l)) pre ->
    hforward pw ln2 l xs false record nk nb na = Ok (ys, l2) -> pcall p xs = Ok ys.
Proof.
  intros pw ln2 l S HL HR HB HC HS. destruct (layer_proxy pw ln2 l S HL HB HC HS) as [p [EP H]]. exists p. split; [exact EP|].
  intros xs record nk nb na pre l1 ys l2 E R E2. destruct (H xs) as [_ H']. rewrite HR in H'. rewrite (H' record nk nb na pre l1 E R). f_equal.
  unfold hforward in E, E2. rewrite preact_no_relu in E. cbn [no_relu l_paq l_out l_relu] in E.
  destruct (pre_activation _ _ _ _ _ _ _) as [zo|]; [|discriminate]. cbn [rbind] in E, E2.
  destruct (call _ _ _ _ _ _ _) as [yq|]; [|discriminate]. cbn [rbind] in E, E2. rewrite HR in E2.
  injection E as <- _. injection E2 as <- _. reflexivity.
Qed.
Print Assumptions C31_relu_layer_proxy.

Example C31_ex : forall pw ln2,
  flat (rbind (hforward pw ln2 (ex_cal true 2) ex_data false false zn zn zn) (fun yl => Ok (fst yl)))
    = Ok [Q2Qc (5 # 4); qz 0; qz 0; Q2Qc (3 # 2); Q2Qc (5 # 2); qz 2] /\
  flat (rbind (to_proxy pw ln2 (ex_cal true 2) "WRAP") (fun p => pcall p ex_data))
    = Ok [Q2Qc (5 # 4); qz 0; qz 0; Q2Qc (3 # 2); Q2Qc (5 # 2); qz 2].
Proof. intros; split; qvm. Qed.

(** C27, C30: a channels_first convolution is not reproduced.  HConv.jit_forward
    calls bias_forward without the channel location (conv.py:122, so -1), while
    fused_qbias uses channel_loc = 1 (base.py:218): the two quantize the bias
    with different bitwidths.  1x1 convolution, one input channel, two output
    channels, spatial size 1, bitwidths 0 and 3 for the two channels. *)
Definition cf_conv (mn mx : list ext) : hlayer :=
  mkL (Linear [[(0, 0)]; [(0, 1)]]%nat (mkT [1; 1; 1; 2]%nat [qz 1; qz 1]) (hgq_build (mkT [1; 1; 1; 1]%nat [qz 3]) None 0 true None)
         (Some (mkT [2]%nat [Q2Qc (3 # 8); qz 0])) (-1))
      (with_minmax (hgq_build (mkT [1; 2; 1; 1]%nat [qz 0; qz 3]) (Some [0]) 0 true None) (mkT [1; 2; 1; 1]%nat mn) (mkT [1; 2; 1; 1]%nat mx))
      false 1 [2; 1; 1]%nat.
Definition cf_layer : hlayer := cf_conv [Fin (qz 0); Fin (qz 0)] [Fin (qz 3); Fin (qz 3)].
Theorem C30_channels_first_refuted : exists l x, bits_clipped (l_paq l) /\ calibrated (l_paq l) /\ quantizer_shape (l_paq l) (l_out l) /\
  forall pw ln2, exists ys l' p ps, hforward pw ln2 l [x] false false zn zn zn = Ok (ys, l') /\ Forall (in_range (l_paq l) (l_out l)) ys /\
    to_proxy pw ln2 l "SAT" = Ok p /\ pcall p [x] = Ok ps /\ map (map this) ys = [[1; 1 # 4]]%Q /\ map (map this) ps = [[0; 1 # 4]]%Q.
Proof.
  exists cf_layer, [[Q2Qc (1 # 4)]]. split; [exact I|]. split.
  { intros g Hg. cbn in Hg. destruct g as [|[|g]]; [exists 0, (qz 0), (qz 3)|exists 3, (qz 0), (qz 3)|lia].
    all: split; [apply nearest_even_qz|]; split; [lia|]; do 2 (split; [reflexivity|]);
      (split; [exists 0; qvm|]); (split; [first [exists 3; qvm|exists 24; qvm]|]); repeat split; vm_compute; congruence. }
  split; [exists [2; 1; 1]%nat; repeat split|].
  intros pw ln2. do 4 eexists. split; [vm_compute; reflexivity|]. split.
  { constructor; [|constructor]. intros e He. cbn in He. destruct e as [|[|e]]; [| |lia]; exists (qz 0), (qz 3); repeat split; vm_compute; discriminate. }
  split; [vm_compute; reflexivity|]. split; [vm_compute; reflexivity|]. split; vm_compute; reflexivity.
Qed.
Print Assumptions C30_channels_first_refuted.

Theorem C27_channels_first_refuted : exists l b, forall pw ln2,
  rbind (bias_forward pw ln2 (l_paq l) b false (-1) zn) (fun t => Ok (map this (data t))) = Ok [3 # 8; 0]%Q /\
  rbind (fused_qbias pw ln2 l b) (fun t => Ok (map this (data t))) = Ok [0; 0]%Q /\ l_loc l = 1.
Proof. exists cf_layer, (mkT [2]%nat [Q2Qc (3 # 8); qz 0]). intros. repeat split. Qed.
Print Assumptions C27_channels_first_refuted.
