(** C60: convolutions with any number of spatial dimensions. *)
From Coq Require Import ZArith QArith Qcanon List Bool Lia Arith.
From Verif Require Import Base.Num Base.NumFacts Base.Tensor Base.Compute Model.FixedPoint Model.Quantizer Model.Layers Model.Graph Model.Trace Model.Bops
  Spec.Fixed Spec.Quant Spec.Layer Spec.Trace Spec.Bops Spec.ConvN Proofs.TensorP Proofs.CallP Proofs.QuantizerP Proofs.BitsP Proofs.SampleP Proofs.LayersP Proofs.RecordP Proofs.CoverP Proofs.BopsP Proofs.BopsL Proofs.ConvNP.
Import ListNotations.
Local Open Scope nat_scope.

(** C60: output element (a, c) of a convolution of any rank is the sum over the kernel window and the channels of its group of the products
    of kernel and zero-padded input, the coordinates moving with the strides and dilations. *)
Theorem C60_convnd : forall ds cin_g cout groups w x a c, Forall2 lt a (map d_out ds) -> c < cout ->
  nth (row_major (map d_out ds) a * cout + c) (linop (conv_taps false ds cin_g cout groups) w x) (qz 0) =
  sum_over (map d_k ds) (fun p => qsum_to cin_g (fun ic =>
    padded_last x (map d_in ds) (cin_g * groups)
      (map (fun dap => let '(d, (i, k)) := dap in (Z.of_nat (i * d_stride d + k * d_dil d) - Z.of_nat (d_pad d))%Z) (combine ds (combine a p)))
      (c / (cout / groups) * cin_g + ic) *
    nth ((row_major (map d_k ds) p * cin_g + ic) * cout + c) w (qz 0)))%Qc.
Proof. exact convn_at. Qed.
Print Assumptions C60_convnd.

(** The same with data_format channels_first. *)
Theorem C60_convnd_channels_first : forall ds cin_g cout groups w x a c, Forall2 lt a (map d_out ds) -> c < cout ->
  nth (c * fold_right Nat.mul 1 (map d_out ds) + row_major (map d_out ds) a) (linop (conv_taps true ds cin_g cout groups) w x) (qz 0) =
  sum_over (map d_k ds) (fun p => qsum_to cin_g (fun ic =>
    padded_first x (map d_in ds)
      (map (fun dap => let '(d, (i, k)) := dap in (Z.of_nat (i * d_stride d + k * d_dil d) - Z.of_nat (d_pad d))%Z) (combine ds (combine a p)))
      (c / (cout / groups) * cin_g + ic) *
    nth ((row_major (map d_k ds) p * cin_g + ic) * cout + c) w (qz 0)))%Qc.
Proof. exact convn_first_at. Qed.
Print Assumptions C60_convnd_channels_first.

(** Three dimensions, (2, 1, 3) with SAME padding along the last: position (1, 0, 0) reads elements 3 and 4 and one zero in front. *)
Definition conv3 : list sdim := [valid_dim 2 1 1 1; valid_dim 1 1 1 1; same_dim 3 3 1 1].
Example C60_convnd_ex : map d_out conv3 = [2; 1; 3] /\ Forall2 lt [1; 0; 0] (map d_out conv3) /\ row_major (map d_out conv3) [1; 0; 0] = 3 /\
  linop (conv_taps false conv3 1 1 1) (map qz [100; 10; 1])%Z (map qz [1; 2; 3; 4; 5; 6])%Z = map qz [12; 123; 230; 45; 456; 560]%Z.
Proof. split; [reflexivity|]. split; [repeat constructor|]. split; [reflexivity|]. qvm. Qed.

(** C60: a convolution layer of any rank (channels last) at inference: element (a, c) of every sample of the batch is the sum of the products
    with the quantized kernel plus the quantized bias of the channel, quantized, and clamped at 0 by a ReLU. *)
Theorem C60_conv_inference : forall pw ln2 ds cin_g cout groups kernel kq bias paq relu_act xs nk nb na record ys l', let out := map d_out ds ++ [cout] in
  quantizer_shape paq out ->
  hforward pw ln2 (mkL (Linear (conv_taps false ds cin_g cout groups) kernel kq bias (-1)) paq relu_act (-1) out) (map (fun x => [x]) xs) false record nk nb na = Ok (ys, l') ->
  exists w kq' qb, call pw ln2 kq kernel false false nk = Ok (w, kq') /\
  match bias with None => qb = mkT [cout] [] | Some b => bias_forward pw ln2 paq b false (-1) nb = Ok qb end /\
  length ys = length xs /\
  forall s a c f, let e := row_major (map d_out ds) a * cout + c in
    s < length xs -> Forall2 lt a (map d_out ds) -> c < cout -> frac_bits (clip_fbw paq) (group_of paq out e) f ->
    exists z, quantized paq f (sum_over (map d_k ds) (fun p => qsum_to cin_g (fun ic =>
        padded_last (nth s xs []) (map d_in ds) (cin_g * groups)
          (map (fun dap => let '(d, (i, k)) := dap in (Z.of_nat (i * d_stride d + k * d_dil d) - Z.of_nat (d_pad d))%Z) (combine ds (combine a p)))
          (c / (cout / groups) * cin_g + ic) *
        nth ((row_major (map d_k ds) p * cin_g + ic) * cout + c) (data w) (qz 0))) + nth c (data qb) (qz 0))%Qc z /\
      nth e (nth s ys []) (qz 0) = if relu_act then qmax z (qz 0) else z.
Proof.
  intros pw ln2 ds cin_g cout groups kernel kq bias paq ra xs nk nb na record ys l' out Hq E. set (ts := conv_taps false ds cin_g cout groups) in *.
  unfold hforward, pre_activation in E. cbn [l_op l_paq l_out l_relu l_loc] in E.
  apply rbind_ok in E. destruct E as [[zs op'] [E1 E]]. apply rbind_ok in E1. destruct E1 as [[w kq'] [Ew E1]]. cbn [fst snd] in E1.
  rewrite map_map in E1. cbn [hd] in E1.
  assert (P : prodn out = prodn (map d_out ds) * cout) by (unfold out; rewrite prodn_app; cbn; lia).
  assert (X : exists qb, match bias with None => qb = mkT [cout] [] | Some b => bias_forward pw ln2 paq b false (-1) nb = Ok qb end /\
    exists zf, zs = map zf xs /\ (forall x, length (zf x) = prodn out) /\
    forall x r c, r < prodn (map d_out ds) -> c < cout -> nth (r * cout + c) (zf x) (qz 0) =
      (nth (r * cout + c) (linop ts (data w) x) (qz 0) + nth c (data qb) (qz 0))%Qc).
  { assert (LL : forall x, length (linop ts (data w) x) = prodn out) by (intros; unfold linop; rewrite map_length, P; apply convn_length).
    destruct bias as [b|].
    - apply rbind_ok in E1. destruct E1 as [qb [Eb E1]]. exists qb. split; [exact Eb|].
      exists (fun x => bias_add (-1) out (data qb) (linop ts (data w) x)).
      split; [rewrite map_map in E1; congruence|]. split.
      + intros x. rewrite bias_add_length. apply LL.
      + intros x r c Hr Hc. rewrite bias_add_nth by (rewrite LL, P; nia). f_equal. f_equal.
        unfold chan, out. cbn [Z.eqb]. rewrite last_last, Nat.add_comm, Nat.mod_add by lia. apply Nat.mod_small. exact Hc.
    - exists (mkT [cout] []). split; [reflexivity|]. exists (linop ts (data w)). split; [injection E1 as E1 _; symmetry; exact E1|]. split; [exact LL|].
      intros x r c Hr Hc. cbn [data]. destruct c; cbn [nth]; rewrite qz_0; ring. }
  destruct X as [qb [Hb [zf [-> [Lz Nz]]]]]. clear E1. cbn [fst snd] in E.
  apply rbind_ok in E. destruct E as [[t q'] [Ec E]]. cbn [fst snd] in E.
  assert (Ey : ys = (if ra then map (map relu) (samples out t) else samples out t)) by congruence. clear E. subst ys.
  exists w, kq', qb. split; [exact Ew|]. split; [exact Hb|].
  apply call_samples in Ec; [|exact Hq|apply Forall_map, Forall_forall; intros x _; apply Lz]. subst t. rewrite map_map.
  rewrite samples_concat by (apply Forall_map, Forall_forall; intros; apply qsample_length).
  split; [destruct ra; rewrite ?map_length; reflexivity|].
  intros s a c f e Hs Ha Hc Hf.
  assert (Hr : row_major (map d_out ds) a < prodn (map d_out ds)) by (rewrite row_major_flat by (symmetry; exact (forall2_length _ _ _ Ha)); apply flat_lt, Ha).
  assert (He : e < prodn out) by (rewrite P; unfold e; nia).
  assert (S2 : q_strategy (clip_fbw paq) = q_strategy paq) by (unfold clip_fbw; destruct (q_clip paq) as [[? ?]|]; reflexivity).
  assert (S3 : group_of (clip_fbw paq) out e = group_of paq out e).
  { unfold group_of, clip_fbw. destruct (q_clip paq) as [[? ?]|]; reflexivity. }
  exists (nth e (qsample (clip_fbw paq) out (zf (nth s xs []))) (qz 0)). split.
  - rewrite qsample_nth by exact He. rewrite S2, S3. unfold e at 2. rewrite (Nz _ _ c Hr Hc). unfold ts. rewrite (convn_at ds cin_g cout groups (data w) _ a c Ha Hc).
    apply qval_quantized. exact Hf.
  - assert (Em : nth s (map (fun x => qsample (clip_fbw paq) out (zf x)) xs) [] = qsample (clip_fbw paq) out (zf (nth s xs []))).
    { apply nth_error_nth. rewrite nth_error_map, (nth_error_nth' xs [] Hs). reflexivity. }
    destruct ra; [|rewrite Em; reflexivity].
    rewrite (nth_indep _ [] (map relu [])) by (rewrite !map_length; exact Hs). rewrite (map_nth (map relu)), Em.
    rewrite (nth_indep _ (qz 0) (relu (qz 0))) by (rewrite map_length, qsample_length; exact He). rewrite map_nth. reflexivity.
Qed.
Print Assumptions C60_conv_inference.

(** One dimension with SAME padding: kernel (1/3, 3/4) with 2 fractional bits becomes (1/4, 3/4), bias 3/8 becomes 1/2 with the output's 1 bit, ReLU. *)
Definition cv_paq : hgq := hgq_build (mkT [1; 3; 1] [qz 1; qz 1; qz 1]) (Some [0%Z]) 0 true None.
Example C60_conv_inference_ex : forall pw ln2 nk nb na, let ds := [same_dim 3 2 1 1] in
  quantizer_shape cv_paq (map d_out ds ++ [1]) /\
  rbind (hforward pw ln2 (mkL (Linear (conv_taps false ds 1 1 1) (mkT [2; 1; 1] [Q2Qc (1 # 3); Q2Qc (3 # 4)]) (hgq_build (mkT [1; 1; 1] [qz 2]) None 0 true None)
    (Some (mkT [1] [Q2Qc (3 # 8)])) (-1)) cv_paq true (-1) (map d_out ds ++ [1])) (map (fun x => [x]) [[qz 4; qz 8; qz (-16)]; [qz 0; qz 2; qz 1]]) false false nk nb na) (fun r => Ok (map this (concat (fst r)))) =
  Ok [15 # 2; 0; 0; 2; 2; 1]%Q.
Proof. intros. split; [exists [3; 1]; repeat split|]. vm_compute. reflexivity. Qed.
