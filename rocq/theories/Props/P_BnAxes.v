(** C87: batch normalisation over several axes. *)
From Coq Require Import ZArith QArith Qcanon List Bool Lia Arith String Ascii.
From Verif Require Import Base.Num Base.NumFacts Base.Tensor Base.Compute Model.FixedPoint Model.Quantizer Model.Layers Model.Bops Model.TrainBops Model.BatchNorm Model.Weights Model.BnLayer
  Spec.Fixed Spec.Quant Spec.History Spec.Layer Spec.Trace Spec.Bops Spec.Norm Spec.BnStats Spec.Weights Spec.BnLayer Spec.BnAxes Proofs.TensorP Proofs.BatchNormP Proofs.QuantizerP Proofs.RecordP Proofs.BitsP Proofs.SampleP Proofs.LayersP
  Proofs.BopsP Proofs.BopsL Proofs.CallP Proofs.TrainBopsP Proofs.BnStatsP Proofs.BnLayerP Proofs.BnAxesP.
Import ListNotations.
Local Open Scope nat_scope.

(** C87: the parameters of a layer over any axes, counted from the front or from the end and in any order, hold one value per
    combination of positions along those axes. *)
Theorem C87_shapes_axes : forall a dims keep kq paq l, let rank := Z.of_nat (S (length dims)) in
  length keep = length dims ->
  (forall i, i < length dims -> nth i keep false = true <-> exists z, In z (ba_axis a) /\ (z mod rank)%Z = Z.of_nat (S i)) ->
  bn_build a dims kq paq = Ok l ->
  (ba_scale a = true -> shape (m_gamma l) = 1 :: kept keep dims /\ shape (m_var l) = 1 :: kept keep dims) /\
  (ba_center a = true -> shape (m_beta l) = 1 :: kept keep dims /\ shape (m_mean l) = 1 :: kept keep dims).
Proof.
  intros a dims keep kq paq l rank L HK E. destruct (build_axes a dims keep kq paq l L HK E) as [ax [_ [_ [_ [HX [H1 H2]]]]]].
  rewrite (ker_shape_kept ax keep dims L HX) in H1, H2. split; assumption.
Qed.
Print Assumptions C87_shapes_axes.

(** C87: such a layer can be trained on batches of samples of its shape: the assignment of the moving statistics never raises, and they
    move towards the mean and the variance of the elements of each channel over the whole batch. *)
Theorem C87_trained_axes : forall rsqrt pw ln2 lg a dims keep kq paq l0 l n x r n1 n2 n3, let rank := Z.of_nat (S (length dims)) in
  length keep = length dims ->
  (forall i, i < length dims -> nth i keep false = true <-> exists z, In z (ba_axis a) /\ (z mod rank)%Z = Z.of_nat (S i)) ->
  bn_build a dims kq paq = Ok l0 -> ba_scale a = true -> ba_center a = true ->
  m_axes l = m_axes l0 -> m_momentum l = m_momentum l0 -> shape (m_mean l) = shape (m_mean l0) -> shape (m_var l) = shape (m_var l0) ->
  wf_tensor x -> shape x = n :: dims ->
  (forall y l', bnorm_forward rsqrt pw ln2 l x true r n1 n2 n3 = Ok (y, l') -> bn_call rsqrt pw ln2 lg l false x true r None n1 n2 n3 = Ok (y, l', None)) /\
  (forall adapt ib y l' t, bn_call rsqrt pw ln2 lg l adapt x true r ib n1 n2 n3 = Ok (y, l', t) ->
   forall c, c < prodn (kept keep dims) -> let g := of_channel keep dims c (data x) in g <> [] ->
     exists mean var, is_mean g mean /\ is_var g var /\
       nth c (data (m_mean l')) (qz 0) = (ba_momentum a * nth c (data (m_mean l)) (qz 0) + (qz 1 - ba_momentum a) * mean)%Qc /\
       nth c (data (m_var l')) (qz 0) = (ba_momentum a * nth c (data (m_var l)) (qz 0) + (qz 1 - ba_momentum a) * var)%Qc).
Proof.
  intros rsqrt pw ln2 lg a dims keep kq paq l0 l n x r n1 n2 n3 rank L HK EB Hsc Hce HA HM Sm Sv W Sx.
  destruct (build_axes a dims keep kq paq l0 L HK EB) as [ax [A [M [X [HX [H1 H2]]]]]]. rewrite (ker_shape_kept ax keep dims L HX) in H1, H2.
  destruct (H1 Hsc) as [_ V0]. destruct (H2 Hce) as [_ M0]. rewrite V0 in Sv. rewrite M0 in Sm.
  pose proof (reduced_shape ax keep n dims L X HX) as RS. rewrite <- A, <- HA in RS.
  assert (RX : kept1 (axis_flags (length (shape x)) (m_axes l)) (shape x) = 1 :: kept keep dims) by (rewrite Sx; exact RS).
  split.
  - intros y l' E. unfold bn_call, can_update. rewrite RX, Sm, Sv. destruct (list_eq_dec _ _ _); [|congruence]. cbn [andb negb rbind]. rewrite E. reflexivity.
  - intros adapt ib y l' t E c Hc g NE. apply bn_call_ok in E. destruct E as [_ [l1 [E1 E]]].
    assert (S1 : m_axes l1 = m_axes l /\ m_momentum l1 = m_momentum l /\ m_mean l1 = m_mean l /\ m_var l1 = m_var l).
    { destruct adapt; [|injection E1 as <-; repeat split]. unfold bn_adapt in E1. do 4 (apply rbind_ok in E1; destruct E1 as [? [_ E1]]). injection E1 as <-. repeat split. }
    destruct S1 as [S1 [S2 [S3 S4]]].
    assert (RX1 : kept1 (axis_flags (length (shape x)) (m_axes l1)) (shape x) = 1 :: kept keep dims) by (rewrite S1; exact RX).
    destruct (bnorm_statistics rsqrt pw ln2 l1 x r n1 n2 n3 y l' W ltac:(rewrite RX1; congruence) ltac:(rewrite RX1; congruence) E) as [mean [var [z [_ [_ [H _]]]]]].
    rewrite RX1 in H. specialize (H c). rewrite (prodn_kept1 (kept keep dims)), (group_channel keep n dims c x L W Sx) in H. specialize (H Hc NE).
    destruct H as [P1 [P2 [P3 P4]]]. rewrite S2, HM, M, S3 in P3. rewrite S2, HM, M, S4 in P4. eauto 8.
Qed.
Print Assumptions C87_trained_axes.

(** C87: the exact bit operations over any axes are the sum over the elements of one sample of the bits of the element times the bits of the
    quantized scale of its channel. *)
Theorem C87_exact_bops_axes : forall rsqrt pw ln2 prev l keep m p0 rest ker w kq', let s := 1 :: kept keep (l_out prev) in
  length keep = length (l_out prev) -> quantizer_shape (l_paq prev) (l_out prev) -> calibrated (l_paq prev) ->
  clip_ok (m_kq l) -> length p0 = m -> s = p0 ++ rest -> reg_ok m rest (q_fbw (m_kq l)) ->
  shape (m_gamma l) = s -> shape (m_var l) = s -> shape ker = s -> length (data ker) = prodn s ->
  (forall c, c < prodn s -> nth c (data ker) (qz 0) = (nth c (data (m_gamma l)) (qz 0) * rsqrt (nth c (data (m_var l)) (qz 0) + m_eps l))%Qc) ->
  call pw ln2 (m_kq l) ker false false (fun _ => qz 0) = Ok (w, kq') ->
  (forall v, In v (data w) -> on_grid 31 v /\ (qabs v < pow2 64)%Qc) ->
  exists ib kb, bn_exact_bops rsqrt pw ln2 (fun a => a) prev l = Ok (sum_to (prodn (l_out prev)) (fun e => ib e * kb (channel keep (l_out prev) e)))%Z /\
    (forall e, e < prodn (l_out prev) -> channel keep (l_out prev) e < length (data w) /\
       exists r mn mx, let g := Spec.Layer.group_of (l_paq prev) (l_out prev) e in
       frac_bits (l_paq prev) g r /\ holds_range (l_paq prev) g mn mx /\
       if l_relu prev then relu_bits r mx (ib e) else range_bits r mn mx (ib e)) /\
    (forall c v, nth_error (data w) c = Some v -> weight_bits v (kb c)).
Proof.
  intros rsqrt pw ln2 prev l keep m p0 rest ker w kq' s L Hq HC Hcl Hm Hs HR Hg Hv Hk Lk Nk Ew HG.
  pose proof (bn_ker_value rsqrt l s ker Hg Hv Hk Lk Nk) as Ek.
  destruct (exact_kept rsqrt pw ln2 prev l keep m p0 rest ker w kq' L Hm Hs HR Hk Ek Ew Hq HC Hcl) as [ib [Ei E]].
  destruct (kept_w pw ln2 prev l keep m p0 rest ker w kq' Hm Hs HR Hk Ew) as [_ Lw].
  destruct (act_bw_exact_at prev Hq HC) as [ib' [Ei' [_ Ni]]]. assert (ib' = ib) by congruence. subst ib'.
  exists (fun e => nth e (data ib) 0%Z), (fun c => nth c (kernel_bw_exact (fun a => a) (data w)) 0%Z). split; [exact E|]. split.
  - intros e He. split; [rewrite Lw; apply channel_lt; assumption|].
    assert (GL : Spec.Layer.group_of (l_paq prev) (l_out prev) e < length (data (q_fbw (l_paq prev)))) by (apply group_lt; assumption).
    destruct (width_range _ _ HC GL) as [r [mn [mx [H1 [H2 [H3 H4]]]]]]. exists r, mn, mx. cbv zeta. split; [assumption|]. split; [assumption|].
    rewrite Ni by assumption. destruct (l_relu prev); assumption.
  - intros c v Hc. apply kernel_bits_at; assumption.
Qed.
Print Assumptions C87_exact_bops_axes.

(** C87: the value of bops after an inference call without adaptation is at least that, over any axes. *)
Theorem C87_over_approximate_axes : forall rsqrt pw ln2 lg prev l keep m p0 rest ker w kq' x r n1 n2 n3 ib y l' t, let s := 1 :: kept keep (l_out prev) in
  length keep = length (l_out prev) -> quantizer_shape (l_paq prev) (l_out prev) -> calibrated (l_paq prev) ->
  clip_ok (m_kq l) -> prefix_skip (q_skip (m_kq l)) m -> length p0 = m -> s = p0 ++ rest -> reg_ok m rest (q_fbw (m_kq l)) ->
  shape (m_gamma l) = s -> shape (m_var l) = s -> shape ker = s -> length (data ker) = prodn s ->
  (forall c, c < prodn s -> nth c (data ker) (qz 0) = (nth c (data (m_gamma l)) (qz 0) * rsqrt (nth c (data (m_var l)) (qz 0) + m_eps l))%Qc) ->
  call pw ln2 (m_kq l) ker false false (fun _ => qz 0) = Ok (w, kq') ->
  (forall v, In v (data w) -> on_grid 31 v /\ (qabs v < pow2 64)%Qc) ->
  act_bw prev = Ok ib -> bn_call rsqrt pw ln2 lg l false x false r (Some ib) n1 n2 n3 = Ok (y, l', t) ->
  exists z e, t = Some z /\ bn_exact_bops rsqrt pw ln2 (fun a => a) prev l = Ok e /\ (0 <= e <= z)%Z.
Proof.
  intros rsqrt pw ln2 lg prev l keep m p0 rest ker w kq' x r n1 n2 n3 ib y l' t s L Hq HC Hcl Hp Hm Hs HR Hg Hv Hk Lk Nk Ew HG Ei EC.
  pose proof (bn_ker_value rsqrt l s ker Hg Hv Hk Lk Nk) as Ek.
  destruct (exact_kept rsqrt pw ln2 prev l keep m p0 rest ker w kq' L Hm Hs HR Hk Ek Ew Hq HC Hcl) as [ie [Ee E]].
  destruct (act_bw_exact_at prev Hq HC) as [ie' [Ee' [_ Ne]]]. assert (ie' = ie) by congruence. subst ie'.
  destruct (act_bw_spec prev Hq) as [it [Et [Si [_ Nt]]]]. assert (it = ib) by congruence. subst it.
  destruct (reported_kept rsqrt pw ln2 prev l keep m p0 rest ker w kq' L Hm Hs HR Hk Ek Ew x ib n1 Hp Si) as [kb [ER NR]].
  unfold bn_call in EC. cbn [andb] in EC. cbn [rbind] in EC. apply rbind_ok in EC. destruct EC as [yl [_ EC]]. rewrite ER in EC. cbn [rbind] in EC.
  match type of EC with Ok (_, _, ?o) = _ => assert (ET : t = o) by congruence end.
  eexists. eexists. split; [exact ET|]. split; [exact E|]. clear EC ET.
  destruct (kept_w pw ln2 prev l keep m p0 rest ker w kq' Hm Hs HR Hk Ew) as [_ Lw].
  apply sum_to_le. intros e He. rewrite Ne, Nt by assumption. unfold abw_at.
  assert (GL : Spec.Layer.group_of (l_paq prev) (l_out prev) e < length (data (q_fbw (l_paq prev)))) by (apply group_lt; assumption).
  pose proof (act_widths (l_paq prev) (l_relu prev) _ HC GL) as [A1 _].
  pose proof (channel_lt keep (l_out prev) e L He) as Hc. set (c := channel keep (l_out prev) e) in *.
  destruct (nth_error (data w) c) as [v|] eqn:Ev; [|apply nth_error_None in Ev; lia].
  pose proof (kernel_bits_at _ _ _ HG Ev) as WB. pose proof (nearest_even_ex (nth (c mod prodn rest) (data (q_fbw kq')) (qz 0))) as Hr.
  assert (PR : prodn rest <> 0) by (intros Z; pose proof (prodn_kept1 (kept keep (l_out prev))) as P; fold s in P; rewrite Hs, prodn_app, Z in P; lia).
  pose proof (grid_kept pw ln2 prev l keep m p0 rest ker w kq' Hm Hs HR Hk Ew _ _ _ Ev Hr) as KG.
  pose proof (weight_le_magnitude _ _ _ _ _ WB (NR _ _ Hc Hr) (in_group_mod _ _ _ _ _ PR Ev eq_refl) KG). pose proof (weight_nonneg _ _ WB). nia.
Qed.
Print Assumptions C87_over_approximate_axes.

(** Samples of shape (2, 2, 2), normalised over the last and the first axis of the sample, inputs of 5 bits: element 6 = (1, 1, 0) takes the scale at (1, 0). *)
Definition rsq2 (x : Qc) : Qc := if qeqb x (qz 4) then Q2Qc (1 # 2) else qz 1.
Definition ax_prev : hlayer := mkL (Fn (fun x => hd [] x))
  (with_minmax (hgq_build (mkT [1; 1; 1; 1] [qz 2]) (Some [0; 1; 2; 3]%Z) 0 true None) (mkT [1; 1; 1; 1] [Fin (Q2Qc (-3 # 2))]) (mkT [1; 1; 1; 1] [Fin (qz 2)])) false (-1) [2; 2; 2].
Definition ax_kq : hgq := hgq_build (mkT [1; 2; 1; 2] [qz 3; qz 3; qz 3; qz 3]) None 0 true (Some (qz (-23), qz 23)).
Definition ax_paq : hgq := hgq_build (mkT [1; 2; 2; 2] (repeat (qz 3) 8)) (Some [0%Z]) 0 true None.
Definition ax_args : bnargs := mkBA [-1; 1]%Z (Q2Qc (99 # 100)) (qz 3) true true true.
Definition ax_bn : bnorm := mkN (mkT [1; 2; 1; 2] [qz 1; qz 3; qz 7; qz 2]) (mkT [1; 2; 1; 2] (repeat (qz 0) 4)) (mkT [1; 2; 1; 2] (repeat (qz 0) 4)) (mkT [1; 2; 1; 2] (repeat (qz 1) 4))
  (qz 3) (Q2Qc (99 # 100)) [0; 2]%Z ax_kq ax_paq.
Definition ax_ker : tensor Qc := mkT [1; 2; 1; 2] [Q2Qc (1 # 2); Q2Qc (3 # 2); Q2Qc (7 # 2); qz 1].
Example C87_axes_several_ex : forall pw ln2, let keep := [true; false; true] in
  (exists l, bn_build ax_args [2; 2; 2] ax_kq ax_paq = Ok l /\ shape (m_gamma l) = 1 :: kept keep [2; 2; 2] /\ m_axes l = [0; 2]%Z) /\
  (forall i, i < 3 -> nth i keep false = true <-> exists z, In z (ba_axis ax_args) /\ (z mod 4)%Z = Z.of_nat (S i)) /\
  map (channel keep [2; 2; 2]) (seq 0 8) = [0; 1; 0; 1; 2; 3; 2; 3] /\
  quantizer_shape (l_paq ax_prev) (l_out ax_prev) /\ calibrated (l_paq ax_prev) /\ clip_ok (m_kq ax_bn) /\ prefix_skip (q_skip (m_kq ax_bn)) 0 /\
  1 :: kept keep (l_out ax_prev) = [1; 2; 1; 2] /\ reg_ok 0 [1; 2; 1; 2] (q_fbw (m_kq ax_bn)) /\
  (forall c, c < 4 -> nth c (data ax_ker) (qz 0) = (nth c (data (m_gamma ax_bn)) (qz 0) * rsq2 (nth c (data (m_var ax_bn)) (qz 0) + m_eps ax_bn))%Qc) /\
  rbind (call pw ln2 (m_kq ax_bn) ax_ker false false (fun _ => qz 0)) (fun r => Ok (fst r)) = Ok ax_ker /\
  bn_exact_bops rsq2 pw ln2 (fun a => a) ax_prev ax_bn = Ok 70%Z /\
  rbind (act_bw ax_prev) (fun ib => rbind (bn_call rsq2 pw ln2 (fun v => qz (flog2 v)) ax_bn false (mkT [1; 2; 2; 2] (repeat (qz 1) 8)) false false (Some ib) (fun _ => qz 0) (fun _ => qz 0) (fun _ => qz 0)) (fun r => Ok (snd r))) = Ok (Some 160%Z).
Proof.
  intros. split; [eexists; split; [reflexivity|]; split; reflexivity|]. split.
  { intros i Hi. unfold keep. cbn [ba_axis ax_args]. destruct i as [|[|[|i]]]; [| | |lia]; cbn [nth]; split; intros H; try discriminate; try reflexivity.
    - exists 1%Z. split; [right; left; reflexivity|reflexivity].
    - destruct H as [z [[<-|[<-|[]]] H]]; vm_compute in H; discriminate.
    - exists (-1)%Z. split; [left; reflexivity|reflexivity]. }
  split; [reflexivity|]. split; [exists [1; 1; 1]; repeat split|]. split.
  { intros g Hg. exists 2%Z. destruct g as [|g]; [|cbn in Hg; lia]. exists (Q2Qc (-3 # 2)), (qz 2). split; [exact (nearest_even_ex (qz 2))|]. split; [lia|]. split; [reflexivity|]. split; [reflexivity|].
    split; [exists (-6)%Z; qvm|]. split; [exists 8%Z; qvm|]. split; [vm_compute; discriminate|]. split; vm_compute; [discriminate|reflexivity]. }
  split; [vm_compute; discriminate|]. split; [right; split; reflexivity|]. split; [reflexivity|]. split; [split; reflexivity|].
  split; [intros c Hc; destruct c as [|[|[|[|c]]]]; [| | | |lia]; qvm|]. split; [qvm|]. split; vm_compute; reflexivity.
Qed.

(** Training it on one sample 0 .. 7: channel (1, 0) holds elements 4 and 6, of mean 5 and variance 1; momentum 99/100. *)
Example C87_trained_axes_ex : let x := mkT [1; 2; 2; 2] (map (fun i => qz (Z.of_nat i)) (seq 0 8)) in
  wf_tensor x /\ of_channel [true; false; true] [2; 2; 2] 2 (data x) = [qz 4; qz 6] /\
  rbind (bn_build ax_args [2; 2; 2] ax_kq ax_paq) (fun l => rbind (bn_call rsq2 (fun _ => qz 0) (qz 0) (fun v => qz (flog2 v)) l false x true false None (fun _ => qz 0) (fun _ => qz 0) (fun _ => qz 0))
    (fun r => Ok (map this (data (m_mean (snd (fst r)))), map this (data (m_var (snd (fst r))))))) = Ok ([1 # 100; 1 # 50; 1 # 20; 3 # 50], [1; 1; 1; 1])%Q.
Proof. split; [reflexivity|]. split; [reflexivity|]. vm_compute. reflexivity. Qed.

(** C87: the bit operations reported by a training call are those of the scales computed from the batch: an inference call would report the
    same had the moving variance been that of the batch. *)
Theorem C87_training_bops : forall rsqrt pw ln2 lg l x r n1 n2 n3 ib y l' t v, let s := kept1 (axis_flags (length (shape x)) (m_axes l)) (shape x) in
  wf_tensor x -> deterministic (m_kq l) ->
  bn_call rsqrt pw ln2 lg l false x true r (Some ib) n1 n2 n3 = Ok (y, l', t) ->
  shape v = s -> length (data v) = prodn s ->
  (forall c, c < prodn s -> Spec.BnStats.group_of s x c <> [] /\ is_var (Spec.BnStats.group_of s x c) (nth c (data v) (qz 0))) ->
  let at_batch := mkN (m_gamma l) (m_beta l) (m_mean l) v (m_eps l) (m_momentum l) (m_axes l) (m_kq l) (m_paq l) in
  exists z, t = Some z /\
  forall r' m1 m2 m3 y2 l2 t2, bn_call rsqrt pw ln2 lg at_batch false x false r' (Some ib) m1 m2 m3 = Ok (y2, l2, t2) -> t2 = Some z.
Proof.
  intros rsqrt pw ln2 lg l x r n1 n2 n3 ib y l' t v s W Hd E Sv Lv Nv at_batch. subst s. destruct (tvar_spec (m_axes l) x W) as [var [EV [S1 [L1 N1]]]].
  assert (var = v) as ->.
  { destruct var as [s1 d1], v as [s2 d2]. cbn [shape data] in *. f_equal; [congruence|]. apply (nth_ext _ _ (qz 0) (qz 0)); [congruence|]. intros c Hc. rewrite L1 in Hc.
    destruct (Nv c Hc) as [NE V]. rewrite N1 by exact Hc. apply var_list_spec; assumption. }
  unfold bn_call in E. destruct (true && negb (can_update l x))%bool; [discriminate|]. cbn [rbind] in E. apply rbind_ok in E. destruct E as [yl [_ E]].
  apply rbind_ok in E. destruct E as [o [EO E]]. injection E as _ _ <-. apply rbind_ok in EO. destruct EO as [z [EZ EO]]. injection EO as <-. exists z. split; [reflexivity|].
  intros r' m1 m2 m3 y2 l2 t2 F. unfold bn_call in F. cbn [andb rbind] in F. apply rbind_ok in F. destruct F as [yl2 [_ F]].
  apply rbind_ok in F. destruct F as [o2 [FO F]]. injection F as _ _ <-. apply rbind_ok in FO. destruct FO as [z2 [FZ FO]]. injection FO as <-. f_equal.
  unfold bn_bops, bn_var in EZ, FZ. rewrite EV in EZ. cbn [rbind] in EZ, FZ. change (bn_ker rsqrt at_batch (m_var at_batch)) with (bn_ker rsqrt l v) in FZ.
  destruct (bn_ker rsqrt l v) as [ker|]; [|discriminate]. cbn [rbind] in EZ, FZ. rewrite (call_det pw ln2 _ _ _ _ Hd) in EZ. cbn [m_kq at_batch] in FZ. unfold call in EZ, FZ.
  rewrite (CallP.forward_noise pw ln2 pw ln2 _ _ _ m1 n1) in FZ. congruence.
Qed.
Print Assumptions C87_training_bops.

(** A batch of equal values: variance 0, so that the scales are twice those of the moving variance 1 and need one more bit. *)
Example C87_training_bops_ex : let x := mkT [1; 2; 2; 2] (repeat (qz 1) 8) in
  let bo l training := rbind (act_bw ax_prev) (fun ib => rbind (bn_call rsq2 (fun _ => qz 0) (qz 0) (fun v => qz (flog2 v)) l false x training false (Some ib) (fun _ => qz 0) (fun _ => qz 0) (fun _ => qz 0)) (fun r => Ok (snd r))) in
  wf_tensor x /\ deterministic (m_kq ax_bn) /\ kept1 (axis_flags 4 (m_axes ax_bn)) (shape x) = [1; 2; 1; 2] /\
  (forall c, c < 4 -> Spec.BnStats.group_of [1; 2; 1; 2] x c = [qz 1; qz 1]) /\ is_var [qz 1; qz 1] (qz 0) /\
  bo ax_bn true = Ok (Some 200%Z) /\ bo ax_bn false = Ok (Some 160%Z) /\
  bo (mkN (m_gamma ax_bn) (m_beta ax_bn) (m_mean ax_bn) (mkT [1; 2; 1; 2] (repeat (qz 0) 4)) (m_eps ax_bn) (m_momentum ax_bn) (m_axes ax_bn) (m_kq ax_bn) (m_paq ax_bn)) false = Ok (Some 200%Z).
Proof.
  split; [reflexivity|]. split; [split; [reflexivity|left; reflexivity]|]. split; [reflexivity|]. split; [intros c Hc; destruct c as [|[|[|[|c]]]]; [reflexivity..|lia]|].
  split; [exists (qz 1); split; unfold is_mean; qvm|]. split; [vm_compute; reflexivity|]. split; vm_compute; reflexivity.
Qed.
