(** C41, C59, C60: bit operations, matrix products and convolutions. *)
From Coq Require Import ZArith QArith Qcanon List Bool Lia Arith.
From Verif Require Import Base.Num Base.NumFacts Base.Tensor Base.Compute Model.FixedPoint Model.Quantizer Model.Layers Model.Graph Model.Trace Model.Bops Model.Float32
  Spec.Fixed Spec.Quant Spec.Layer Spec.Trace Spec.Bops Spec.Float Proofs.TensorP Proofs.CallP Proofs.QuantizerP Proofs.BitsP Proofs.SampleP Proofs.LayersP Proofs.RecordP
  Proofs.CoverP Proofs.TraceP Proofs.TraceMinmaxP Proofs.TraceMoreP Proofs.BopsP Proofs.BopsL Proofs.Float32P.
Import ListNotations.
Local Open Scope nat_scope.

(** ** C60: the operators *)

(** Dense layers: the matrix product with the (quantized) kernel. *)
Theorem C60_dense_is_matrix_product : forall rows n u w x,
  length (linop (matmul_taps rows n u) w x) = rows * u /\
  forall r c, r < rows -> c < u ->
    nth (r * u + c) (linop (matmul_taps rows n u) w x) (qz 0) =
    qsum_to n (fun j => nth (r * n + j) x (qz 0) * nth (j * u + c) w (qz 0))%Qc.
Proof.
  intros rows n u w x. split; [unfold linop; rewrite map_length; apply matmul_length|]. intros. apply matmul_at; assumption.
Qed.
Print Assumptions C60_dense_is_matrix_product.

Example C60_dense_ex : linop (matmul_taps 2 2 1) [qz 10; qz 1] [qz 1; qz 2; qz 3; qz 4] = [qz 12; qz 34].
Proof. qvm. Qed.

(** One-dimensional convolution, any stride, dilation, padding and number of groups. *)
Theorem C60_conv1d : forall d cin_g cout groups w x a c, a < d_out d -> c < cout ->
  nth (a * cout + c) (linop (conv_taps false [d] cin_g cout groups) w x) (qz 0) =
  qsum_to (d_k d) (fun p => qsum_to cin_g (fun ic =>
    padded1 x (d_in d) (cin_g * groups) (Z.of_nat (a * d_stride d + p * d_dil d) - Z.of_nat (d_pad d)) (c / (cout / groups) * cin_g + ic) *
    nth ((p * cin_g + ic) * cout + c) w (qz 0)))%Qc.
Proof. exact conv1_at. Qed.
Print Assumptions C60_conv1d.

(** Two-dimensional convolution. *)
Theorem C60_conv2d : forall d1 d2 cin_g cout groups w x a b c, a < d_out d1 -> b < d_out d2 -> c < cout ->
  nth ((a * d_out d2 + b) * cout + c) (linop (conv_taps false [d1; d2] cin_g cout groups) w x) (qz 0) =
  qsum_to (d_k d1) (fun p => qsum_to (d_k d2) (fun q => qsum_to cin_g (fun ic =>
    padded2 x (d_in d1) (d_in d2) (cin_g * groups) (Z.of_nat (a * d_stride d1 + p * d_dil d1) - Z.of_nat (d_pad d1))
      (Z.of_nat (b * d_stride d2 + q * d_dil d2) - Z.of_nat (d_pad d2)) (c / (cout / groups) * cin_g + ic) *
    nth (((p * d_k d2 + q) * cin_g + ic) * cout + c) w (qz 0))))%Qc.
Proof. exact conv2_at. Qed.
Print Assumptions C60_conv2d.

(** The same convolutions with data_format channels_first. *)
Theorem C60_conv1d_channels_first : forall d cin_g cout groups w x a c, a < d_out d -> c < cout ->
  nth (c * d_out d + a) (linop (conv_taps true [d] cin_g cout groups) w x) (qz 0) =
  qsum_to (d_k d) (fun p => qsum_to cin_g (fun ic =>
    padded1_first x (d_in d) (Z.of_nat (a * d_stride d + p * d_dil d) - Z.of_nat (d_pad d)) (c / (cout / groups) * cin_g + ic) *
    nth ((p * cin_g + ic) * cout + c) w (qz 0)))%Qc.
Proof. exact conv1_first_at. Qed.
Print Assumptions C60_conv1d_channels_first.
Theorem C60_conv2d_channels_first : forall d1 d2 cin_g cout groups w x a b c, a < d_out d1 -> b < d_out d2 -> c < cout ->
  nth (c * (d_out d1 * d_out d2) + (a * d_out d2 + b)) (linop (conv_taps true [d1; d2] cin_g cout groups) w x) (qz 0) =
  qsum_to (d_k d1) (fun p => qsum_to (d_k d2) (fun q => qsum_to cin_g (fun ic =>
    padded2_first x (d_in d1) (d_in d2) (Z.of_nat (a * d_stride d1 + p * d_dil d1) - Z.of_nat (d_pad d1))
      (Z.of_nat (b * d_stride d2 + q * d_dil d2) - Z.of_nat (d_pad d2)) (c / (cout / groups) * cin_g + ic) *
    nth (((p * d_k d2 + q) * cin_g + ic) * cout + c) w (qz 0))))%Qc.
Proof. exact conv2_first_at. Qed.
Print Assumptions C60_conv2d_channels_first.

(** Two input channels, two output channels, stored channel by channel. *)
Example C60_channels_first_ex :
  linop (conv_taps true [valid_dim 3 2 1 1] 2 2 1) (map qz [1000; 1; 100; 0; 10; 0; 1; 1])%Z (map qz [1; 2; 3; 4; 5; 6])%Z = map qz [1425; 2536; 6; 8]%Z /\
  linop (conv_taps true [valid_dim 1 1 1 1; valid_dim 2 1 1 1] 2 1 1) (map qz [10; 1])%Z (map qz [1; 2; 3; 4])%Z = map qz [13; 24]%Z.
Proof. split; qvm. Qed.

(** SAME padding, kernel 3: the borders read zeros; stride 2 and dilation 2 skip; two groups do not mix. *)
Example C60_conv_ex :
  linop (conv_taps false [same_dim 4 3 1 1] 1 1 1) [qz 100; qz 10; qz 1] [qz 1; qz 2; qz 3; qz 4] = [qz 12; qz 123; qz 234; qz 340] /\
  linop (conv_taps false [valid_dim 7 2 2 2] 1 1 1) [qz 10; qz 1] [qz 1; qz 2; qz 3; qz 4; qz 5; qz 6; qz 7] = [qz 13; qz 35; qz 57] /\
  linop (conv_taps false [valid_dim 2 1 1 1] 1 2 2) [qz 10; qz 1] [qz 1; qz 2; qz 3; qz 4] = [qz 10; qz 2; qz 30; qz 4] /\
  linop (conv_taps false [valid_dim 2 2 1 1; valid_dim 3 2 1 1] 1 1 1) [qz 1000; qz 100; qz 10; qz 1] [qz 1; qz 2; qz 3; qz 4; qz 5; qz 6] = [qz 1245; qz 2356].
Proof. repeat split; qvm. Qed.

(** The output positions are those TensorFlow documents: VALID keeps the windows inside the input,
    SAME one window per stride. *)
Theorem C60_output_positions : forall n k s dil a, 0 < s ->
  (a < d_out (valid_dim n k s dil) <-> a * s + (k - 1) * dil < n) /\
  (a < d_out (same_dim n k s dil) <-> a * s < n).
Proof. intros n k s dil a Hs. split; [apply valid_spec|apply same_spec]; exact Hs. Qed.
Print Assumptions C60_output_positions.

(** SAME padding is split evenly, the extra zero at the end. *)
Theorem C60_same_padding : forall n k s dil, 0 < s -> 0 < n -> 0 < k ->
  let d := same_dim n k s dil in let last := (d_out d - 1) * s + (k - 1) * dil in
  (last < n -> d_pad d = 0) /\
  (n <= last -> 2 * d_pad d = last + 1 - n \/ 2 * d_pad d + 1 = last + 1 - n).
Proof.
  intros n k s dil Hs Hn Hk. unfold same_dim. cbn [d_out d_pad]. set (o := (n + s - 1) / s). clearbody o. cbv zeta.
  set (t := (o - 1) * s + (k - 1) * dil). clearbody t. pose proof (Nat.div_mod (t + 1 - n) 2 ltac:(lia)). pose proof (Nat.mod_upper_bound (t + 1 - n) 2 ltac:(lia)).
  split; intros; lia.
Qed.
Print Assumptions C60_same_padding.

Example C60_geometry_ex : valid_dim 10 3 2 2 = mkD 10 3 2 2 0 3 /\ same_dim 10 3 1 1 = mkD 10 3 1 1 1 10 /\ same_dim 10 4 2 1 = mkD 10 4 2 1 1 5 /\ same_dim 5 2 1 1 = mkD 5 2 1 1 0 5.
Proof. repeat split. Qed.

(** A dense layer at inference: element (r, c) of every sample of the batch is the sum of the products with the
    quantized kernel plus the quantized bias of the channel, quantized, and clamped at 0 by a ReLU. *)
Theorem C60_dense_inference : forall pw ln2 rows n u kernel kq bias paq relu_act xs nk nb na record ys l',
  quantizer_shape paq [rows; u] ->
  hforward pw ln2 (mkL (Linear (matmul_taps rows n u) kernel kq bias (-1)) paq relu_act (-1) [rows; u]) (map (fun x => [x]) xs) false record nk nb na = Ok (ys, l') ->
  exists w kq' qb, call pw ln2 kq kernel false false nk = Ok (w, kq') /\
  match bias with None => qb = mkT [u] [] | Some b => bias_forward pw ln2 paq b false (-1) nb = Ok qb end /\
  length ys = length xs /\
  forall s r c f, s < length xs -> r < rows -> c < u -> frac_bits (clip_fbw paq) (group_of paq [rows; u] (r * u + c)) f ->
    exists z, quantized paq f (qsum_to n (fun j => nth (r * n + j) (nth s xs []) (qz 0) * nth (j * u + c) (data w) (qz 0)) + nth c (data qb) (qz 0))%Qc z /\
      nth (r * u + c) (nth s ys []) (qz 0) = if relu_act then qmax z (qz 0) else z.
Proof.
  intros pw ln2 rows n u kernel kq bias paq ra xs nk nb na record ys l' Hq E. unfold hforward, pre_activation in E. cbn [l_op l_paq l_out l_relu l_loc] in E.
  apply rbind_ok in E. destruct E as [[zs op'] [E1 E]]. apply rbind_ok in E1. destruct E1 as [[w kq'] [Ew E1]]. cbn [fst snd] in E1.
  rewrite map_map in E1. cbn [hd] in E1.
  assert (X : exists qb, match bias with None => qb = mkT [u] [] | Some b => bias_forward pw ln2 paq b false (-1) nb = Ok qb end /\
    exists zf, zs = map zf xs /\ (forall x, length (zf x) = rows * u) /\
    forall x r c, r < rows -> c < u -> nth (r * u + c) (zf x) (qz 0) =
      (nth (r * u + c) (linop (matmul_taps rows n u) (data w) x) (qz 0) + nth c (data qb) (qz 0))%Qc).
  { assert (LL : forall x, length (linop (matmul_taps rows n u) (data w) x) = rows * u) by (intros; unfold linop; rewrite map_length; apply matmul_length).
    destruct bias as [b|].
    - apply rbind_ok in E1. destruct E1 as [qb [Eb E1]]. exists qb. split; [exact Eb|].
      exists (fun x => bias_add (-1) [rows; u] (data qb) (linop (matmul_taps rows n u) (data w) x)).
      split; [rewrite map_map in E1; congruence|]. split.
      + intros x. rewrite bias_add_length. apply LL.
      + intros x r c Hr Hc. rewrite bias_add_nth by (rewrite LL; nia). f_equal. f_equal.
        unfold chan. cbn [Z.eqb last]. rewrite Nat.add_comm, Nat.mod_add by lia. apply Nat.mod_small. exact Hc.
    - exists (mkT [u] []). split; [reflexivity|]. exists (linop (matmul_taps rows n u) (data w)). split; [injection E1 as E1 _; symmetry; exact E1|]. split; [exact LL|].
      intros x r c Hr Hc. cbn [data]. destruct c; cbn [nth]; rewrite qz_0; ring. }
  destruct X as [qb [Hb [zf [-> [Lz Nz]]]]]. clear E1. cbn [fst snd] in E.
  apply rbind_ok in E. destruct E as [[t q'] [Ec E]]. cbn [fst snd] in E.
  assert (Ey : ys = (if ra then map (map relu) (samples [rows; u] t) else samples [rows; u] t)) by congruence. clear E. subst ys.
  exists w, kq', qb. split; [exact Ew|]. split; [exact Hb|].
  assert (P : prodn [rows; u] = rows * u) by (cbn; lia).
  apply call_samples in Ec; [|exact Hq|apply Forall_map, Forall_forall; intros x _; rewrite P; apply Lz]. subst t. rewrite map_map.
  rewrite samples_concat by (apply Forall_map, Forall_forall; intros; apply qsample_length).
  split; [destruct ra; rewrite ?map_length; reflexivity|].
  intros s r c f Hs Hr Hc Hf.
  assert (He : r * u + c < prodn [rows; u]) by (rewrite P; nia).
  assert (S2 : q_strategy (clip_fbw paq) = q_strategy paq) by (unfold clip_fbw; destruct (q_clip paq) as [[? ?]|]; reflexivity).
  assert (S3 : group_of (clip_fbw paq) [rows; u] (r * u + c) = group_of paq [rows; u] (r * u + c)).
  { unfold group_of, clip_fbw. destruct (q_clip paq) as [[? ?]|]; reflexivity. }
  exists (nth (r * u + c) (qsample (clip_fbw paq) [rows; u] (zf (nth s xs []))) (qz 0)). split.
  - rewrite qsample_nth by exact He. rewrite S2, S3, (Nz _ r c Hr Hc), (matmul_at rows n u (data w) _ r c Hr Hc).
    apply qval_quantized. exact Hf.
  - assert (Em : nth s (map (fun x => qsample (clip_fbw paq) [rows; u] (zf x)) xs) [] = qsample (clip_fbw paq) [rows; u] (zf (nth s xs []))).
    { apply nth_error_nth. rewrite nth_error_map, (nth_error_nth' xs [] Hs). reflexivity. }
    destruct ra; [|rewrite Em; reflexivity].
    rewrite (nth_indep _ [] (map relu [])) by (rewrite !map_length; exact Hs). rewrite (map_nth (map relu)), Em.
    rewrite (nth_indep _ (qz 0) (relu (qz 0))) by (rewrite map_length, qsample_length; exact He). rewrite map_nth. reflexivity.
Qed.
Print Assumptions C60_dense_inference.

(** A dense layer on two rows: kernel 1/3, 3/4 with 2 fractional bits, bias 3/8, outputs with 1 fractional bit, ReLU. *)
Definition ex_paq : hgq := hgq_build (mkT [1; 2; 1] [qz 1; qz 1]) (Some [0%Z]) 0 true None.
Example C60_dense_inference_ex : forall pw ln2 nk nb na,
  quantizer_shape ex_paq [2; 1] /\
  rbind (hforward pw ln2 (mkL (Linear (matmul_taps 2 2 1) (mkT [2; 1] [Q2Qc (1 # 3); Q2Qc (3 # 4)]) (hgq_build (mkT [1; 1] [qz 2]) None 0 true None)
    (Some (mkT [1] [Q2Qc (3 # 8)])) (-1)) ex_paq true (-1) [2; 1]) (map (fun x => [x]) [[qz 1; qz 1; qz 2; qz (-1)]; [qz (-1); qz (-3); qz 4; qz 0]]) false false nk nb na) (fun r => Ok (concat (fst r))) =
  Ok [Q2Qc (3 # 2); Q2Qc (1 # 2); qz 0; Q2Qc (3 # 2)].
Proof. intros. split; [exists [2; 1]; repeat split|]. qvm. Qed.

(** ** C41, C59: exact bit operations *)

(** C41: HDense counts, over all rows, inputs and units, input bits times weight bits; a shape mismatch raises. *)
Theorem C41_dense_formula : forall rows n u input_bw kernel_bw,
  (length input_bw = rows * n /\ length kernel_bw = n * u ->
   dense_bops rows n u input_bw kernel_bw = Ok (sum_to rows (fun r => sum_to u (fun c => sum_to n (fun j =>
     nth (r * n + j) input_bw 0 * nth (j * u + c) kernel_bw 0)%Z)))) /\
  (length input_bw <> rows * n \/ length kernel_bw <> n * u -> dense_bops rows n u input_bw kernel_bw = Raise).
Proof.
  intros. unfold dense_bops. split.
  - intros [-> ->]. rewrite !Nat.eqb_refl. cbn [andb]. rewrite matmul_bits. reflexivity.
  - intros [H|H]; apply Nat.eqb_neq in H; rewrite H; [reflexivity|]. rewrite andb_false_r. reflexivity.
Qed.
Print Assumptions C41_dense_formula.

Example C41_dense_formula_ex : dense_bops 2 2 2 [3; 4; 0; 5]%Z [1; 2; 6; 0]%Z = Ok 63%Z /\ dense_bops 2 2 2 [3; 4; 0]%Z [1; 2; 6; 0]%Z = Raise.
Proof. split; reflexivity. Qed.

(** C41: with this compute_exact_bops, trace_minmax returns the sum over the top-level layers of the bit operations
    that the traced model has: those of the final bitwidths and ranges. *)
Theorem C41_trace_returns_exact_bops : forall pw ln2 fl pred conv m ds bsz rst c st bops rs st',
  trace_minmax pw ln2 (exact_bops pw ln2 fl pred conv) m ds bsz rst c false st = Ok (bops, rs, st') ->
  bops_sum st' (top_layers m) bops /\
  forall i, In i (top_layers m) -> exists o, nth_error st' i = Some o /\ exact_bops pw ln2 fl pred conv st' i = Ok (o_bops o).
Proof.
  unfold trace_minmax. intros pw ln2 fl pred conv m ds bsz rst c st bops rs st' E. set (eb := exact_bops pw ln2 fl pred conv) in *.
  apply rbind_ok in E. destruct E as [s1 [_ E]]. destruct (Nat.eqb _ _); [discriminate|].
  apply rbind_ok in E. destruct E as [[r s2] [_ E]]. apply rbind_ok in E. destruct E as [s3 [_ E]].
  apply rbind_ok in E. destruct E as [s4 [_ E]]. apply rbind_ok in E. destruct E as [[b s5] [E5 E]]. cbn [fst snd] in E. injection E as <- _ <-.
  split.
  - destruct (count_spec eb _ (top_NoDup m) _ _ _ E5) as [_ [_ [_ [l [_ [H2 H3]]]]]]. exists l. split; [exact H3|exact H2].
  - apply (count_layers eb (fun s s' i => exact_bops_layers pw ln2 fl pred conv s s' i) _ (top_NoDup m) _ _ _ E5).
Qed.
Print Assumptions C41_trace_returns_exact_bops.

(** C41: with no_bops_computation the result is -1, which is no count; the calibration is the same with and without counting. *)
Theorem C41_without_counting : forall pw ln2 fl pred conv m ds bsz rst c st bops rs st',
  let eb := exact_bops pw ln2 fl pred conv in
  (trace_minmax pw ln2 eb m ds bsz rst c true st = Ok (bops, rs, st') -> bops = qz (-1)) /\
  (trace_minmax pw ln2 eb m ds bsz rst c false st = Ok (bops, rs, st') ->
   exists st'', trace_minmax pw ln2 eb m ds bsz rst c true st = Ok (qz (-1), rs, st'') /\ map o_layer st'' = map o_layer st').
Proof.
  unfold trace_minmax. intros pw ln2 fl pred conv m ds bsz rst c st bops rs st'. cbv zeta. set (eb := exact_bops pw ln2 fl pred conv).
  destruct (if rst then each start_obj (top_layers m) st else Ok st) as [s1|]; cbn [rbind]; [|split; discriminate].
  destruct (Nat.eqb _ _); [split; discriminate|].
  destruct (feed _ _ _ _ s1) as [[r s2]|]; cbn [rbind fst snd]; [|split; discriminate].
  destruct (cover_step _ _ _ _ s2) as [s3|]; cbn [rbind]; [|split; discriminate].
  destruct (each fix_obj _ s3) as [s4|]; cbn [rbind]; [|split; discriminate].
  assert (N : (- qz 1)%Qc = qz (-1)) by qvm. rewrite N. split; [congruence|].
  intros E. apply rbind_ok in E. destruct E as [[b s5] [E5 E]]. cbn [fst snd] in E. exists s4.
  destruct (count_layers eb (fun s s' i => exact_bops_layers pw ln2 fl pred conv s s' i) _ (top_NoDup m) _ _ _ E5) as [L _].
  assert (H : r = rs /\ s5 = st') by (split; congruence). destruct H as [-> <-]. split; [reflexivity|]. symmetry. exact L.
Qed.
Print Assumptions C41_without_counting.

(** C59: the bit operations of a layer with a kernel are the sum over its multiplications of the bits of the
    input times the bits of the weight, where the bits of an input are those of the least format covering the
    calibrated range of the layer it comes from, and the bits of a weight those between its highest and lowest bit. *)
Theorem C59_layer_bops : forall pw ln2 prev ts kernel kq bias bl paq relu_act loc out w,
  quantizer_shape (l_paq prev) (l_out prev) -> calibrated (l_paq prev) ->
  forward pw ln2 kq kernel false false (fun _ => qz 0) = Ok (w, kq) ->
  (forall v, In v (data w) -> on_grid 31 v /\ (qabs v < pow2 64)%Qc) ->
  exists ib kb, layer_bops pw ln2 (fun a => a) prev (mkL (Linear ts kernel kq bias bl) paq relu_act loc out) =
      Ok (fold_right Z.add 0 (map (fun ps => fold_right Z.add 0 (map (fun ab => ib (fst ab) * kb (snd ab)) ps)) ts))%Z /\
    (forall e, e < prodn (l_out prev) -> exists r mn mx, let g := group_of (l_paq prev) (l_out prev) e in
       frac_bits (l_paq prev) g r /\ holds_range (l_paq prev) g mn mx /\
       if l_relu prev then relu_bits r mx (ib e) else range_bits r mn mx (ib e)) /\
    (forall p v, nth_error (data w) p = Some v -> weight_bits v (kb p)).
Proof.
  intros pw ln2 prev ts kernel kq bias bl paq ra loc out w Hq HC Hw HG.
  destruct (act_bw_exact_at prev Hq HC) as [ib [Ei [_ Ni]]].
  exists (fun a => nth a (data ib) 0%Z), (fun b => nth b (kernel_bw_exact (fun a => a) (data w)) 0%Z). split; [|split].
  - unfold layer_bops. cbn [l_op]. unfold layer_kernel_bw. rewrite Hw. cbn [rbind fst]. rewrite Ei. reflexivity.
  - intros e He. assert (GL : group_of (l_paq prev) (l_out prev) e < length (data (q_fbw (l_paq prev)))) by (apply group_lt; assumption).
    destruct (width_range _ _ HC GL) as [r [mn [mx [H1 [H2 [H3 H4]]]]]]. exists r, mn, mx. cbv zeta. split; [assumption|]. split; [assumption|].
    rewrite Ni by assumption. destruct (l_relu prev); assumption.
  - intros p v Hv. apply kernel_bits_at; assumption.
Qed.
Print Assumptions C59_layer_bops.

(** A pruned weight costs nothing, and a weight that is a power of two costs one bit per input bit. *)
Theorem C59_weight_costs : forall v b, weight_bits v b ->
  (v = qz 0 <-> b = 0%Z) /\ (v <> qz 0 -> (1 <= b)%Z) /\ (forall m, v = pow2 m \/ v = (- pow2 m)%Qc -> b = 1%Z).
Proof.
  intros v b H.
  assert (P : v <> qz 0 -> (1 <= b)%Z).
  { intros NZ. destruct H as [[-> _]|[_ [i [f [-> [U [_ [G _]]]]]]]]; [contradiction|].
    assert (A : (qz 0 < qabs v)%Qc) by (destruct (qabs_spec v) as [[? ->]|[? ->]]; [destruct (qc_neq_lt v (qz 0) NZ); [exfalso; qlra|assumption]|qlra]).
    pose proof (grid_pos_ge f (qabs v) (grid_abs f v G) A) as X. assert (Y : (pow2 (- f) < pow2 i)%Qc) by qlra. apply pow2_lt_inv in Y. lia. }
  split; [|split; [exact P|]].
  - split; [intros ->; destruct H as [[_ ->]|[N _]]; [reflexivity|contradiction]|]. intros ->. destruct (qeqb_spec v (qz 0)) as [E|N]; [exact E|]. specialize (P N). lia.
  - intros m Hm. pose proof (pow2_pos m) as PP. assert (NZ : v <> qz 0) by (destruct Hm as [->| ->]; intros C; apply (f_equal (fun t => t)) in C; qlra).
    assert (A : qabs v = pow2 m) by (destruct Hm as [->| ->]; destruct (qabs_spec (pow2 m)) as [[? ?]|[? ?]], (qabs_spec (- pow2 m)%Qc) as [[? ?]|[? ?]]; qlra).
    specialize (P NZ). destruct H as [[C _]|[_ [i [f [-> [U [I [G F]]]]]]]]; [contradiction|].
    assert (i <= m + 1)%Z by (apply I; rewrite A; apply pow2_lt; lia).
    assert (f <= - m)%Z; [|lia]. apply F. rewrite Z.opp_involutive. destruct Hm as [->| ->]; [exists 1%Z; rewrite qz1; ring|exists (-1)%Z].
    change (-1)%Z with (- (1))%Z. rewrite qz_opp, qz1. ring.
Qed.
Print Assumptions C59_weight_costs.

(** A quantized layer with range [-3/2, 2] on one input, {0} on the other, and a 2x2 kernel with one pruned weight. *)
Definition ex_prev : hlayer := mkL (Fn (fun x => hd [] x))
  (with_minmax (hgq_build (mkT [1; 2] [qz 2; qz 2]) (Some [0%Z]) 0 true None)
     (mkT [1; 2] [Fin (Q2Qc (-3 # 2)); Fin (qz 0)]) (mkT [1; 2] [Fin (qz 2); Fin (qz 0)])) false (-1) [2].
Definition ex_kernel : tensor Qc := mkT [2; 2] [Q2Qc (1 # 3); Q2Qc (1 # 32); Q2Qc (9 # 8); qz 1].
Definition ex_kq : hgq := hgq_build (mkT [1; 1] [qz 3]) None 0 true None.
Example C59_layer_bops_ex : forall pw ln2,
  quantizer_shape (l_paq ex_prev) (l_out ex_prev) /\ calibrated (l_paq ex_prev) /\
  forward pw ln2 ex_kq ex_kernel false false (fun _ => qz 0) = Ok (mkT [2; 2] [Q2Qc (3 # 8); qz 0; Q2Qc (9 # 8); qz 1], ex_kq) /\
  (forall v, In v [Q2Qc (3 # 8); qz 0; Q2Qc (9 # 8); qz 1] -> on_grid 31 v /\ (qabs v < pow2 64)%Qc) /\
  layer_bops pw ln2 (fun a => a) ex_prev (mkL (Linear (matmul_taps 1 2 2) ex_kernel ex_kq None (-1)) ex_paq false (-1) [2]) = Ok 10%Z.
Proof.
  intros. split; [exists [2]; repeat split|]. split; [|split; [|split]].
  - intros g Hg. exists 2%Z. destruct g as [|[|g]]; [| |cbn in Hg; lia].
    + exists (Q2Qc (-3 # 2)), (qz 2). split; [exact (nearest_even_ex (qz 2))|]. split; [lia|]. split; [reflexivity|]. split; [reflexivity|].
      split; [exists (-6)%Z; qvm|]. split; [exists 8%Z; qvm|]. split; [vm_compute; discriminate|]. split; vm_compute; [discriminate|reflexivity].
    + exists (qz 0), (qz 0). split; [exact (nearest_even_ex (qz 2))|]. split; [lia|]. split; [reflexivity|]. split; [reflexivity|].
      split; [exists 0%Z; qvm|]. split; [exists 0%Z; qvm|]. split; [vm_compute; discriminate|]. split; vm_compute; [discriminate|reflexivity].
  - assert (X : rbind (forward pw ln2 ex_kq ex_kernel false false (fun _ => qz 0)) (fun r => Ok (fst r)) = Ok (mkT [2; 2] [Q2Qc (3 # 8); qz 0; Q2Qc (9 # 8); qz 1])) by qvm.
    apply rbind_ok in X. destruct X as [[y q] [E X]]. assert (y = mkT [2; 2] [Q2Qc (3 # 8); qz 0; Q2Qc (9 # 8); qz 1]) by (cbn [fst] in X; congruence). subst y.
    rewrite E. do 2 f_equal. unfold forward in E. apply rbind_ok in E. destruct E as [a [_ E]]. apply rbind_ok in E. destruct E as [c [_ E]]. cbn [negb] in E. congruence.
  - intros v [<-|[<-|[<-|[<-|[]]]]]; (split; [|vm_compute; reflexivity]).
    + exists (3 * 2 ^ 28)%Z. qvm. + exists 0%Z. qvm. + exists (9 * 2 ^ 28)%Z. qvm. + exists (2 ^ 31)%Z. qvm.
  - vm_compute. reflexivity.
Qed.

(** C59: what compute_exact_bops returns for a layer of a model: the sum above, for a convolution (channels_last) times
    parallel_factor divided by the number of output positions; 0 for a layer without kernel. *)
Theorem C59_model_bops : forall pw ln2 pred conv st i o, nth_error st i = Some o ->
  (forall g, l_op (o_layer o) = Fn g -> exact_bops pw ln2 (fun a => a) pred conv st i = Ok (qz 0)) /\
  (forall p o0 ts kernel kq bias bl w, pred i = Some p -> nth_error st p = Some o0 -> l_op (o_layer o) = Linear ts kernel kq bias bl ->
   let prev := o_layer o0 in
   quantizer_shape (l_paq prev) (l_out prev) -> calibrated (l_paq prev) ->
   forward pw ln2 kq kernel false false (fun _ => qz 0) = Ok (w, kq) ->
   (forall v, In v (data w) -> on_grid 31 v /\ (qabs v < pow2 64)%Qc) ->
   exists ib kb, let macs := fold_right Z.add 0%Z (map (fun ps => fold_right Z.add 0%Z (map (fun ab => (ib (fst ab) * kb (snd ab))%Z) ps)) ts) in
     (conv i = None -> exact_bops pw ln2 (fun a => a) pred conv st i = Ok (qz macs)) /\
     (forall pf batch dims cout, conv i = Some (pf, batch :: dims ++ [cout]) ->
       exact_bops pw ln2 (fun a => a) pred conv st i = Ok (qz macs * qz pf / qz (Z.of_nat (fold_right Nat.mul 1%nat dims)))%Qc) /\
     (forall e, e < prodn (l_out prev) -> exists r mn mx, let g := group_of (l_paq prev) (l_out prev) e in
       frac_bits (l_paq prev) g r /\ holds_range (l_paq prev) g mn mx /\
       if l_relu prev then relu_bits r mx (ib e) else range_bits r mn mx (ib e)) /\
     (forall p v, nth_error (data w) p = Some v -> weight_bits v (kb p))).
Proof.
  intros pw ln2 pred conv st i o Ho.
  assert (GO : get st i = Ok o) by (unfold get; rewrite Ho; reflexivity). split.
  - intros g Hg. unfold exact_bops. rewrite GO. cbn [rbind]. rewrite Hg. reflexivity.
  - intros p o0 ts kernel kq bias bl w Hp H0 Hop prev Hq HC Hw HG.
    destruct (o_layer o) as [op paq ra loc out] eqn:EL. cbn [l_op] in Hop. subst op.
    destruct (C59_layer_bops pw ln2 prev ts kernel kq bias bl paq ra loc out w Hq HC Hw HG) as [ib [kb [E [Hi Hk]]]].
    exists ib, kb. cbv zeta.
    assert (G0 : get st p = Ok o0) by (unfold get; rewrite H0; reflexivity).
    split; [|split; [|split; [exact Hi|exact Hk]]]; [intros Hc|intros pf batch dims cout Hc];
      unfold exact_bops; rewrite GO; cbn [rbind]; rewrite EL; cbn [l_op]; rewrite Hp, G0; cbn [rbind]; fold prev; rewrite E; cbn [rbind]; rewrite Hc; [reflexivity|].
    unfold total_channels. cbn [tl]. rewrite removelast_last, qz_mul. reflexivity.
Qed.
Print Assumptions C59_model_bops.

(** The layer of [C59_layer_bops_ex] in a model, and the same multiplications as a 1x1 convolution with parallel_factor 3
    over 2 positions. *)
Definition ex_conv_store : store :=
  [mkO ex_prev false ALinear [[2]] (qz 0);
   mkO (mkL (Linear (matmul_taps 1 2 2) ex_kernel ex_kq None (-1)) ex_paq false (-1) [2]) false AOther [[2]] (qz 0)].
Example C59_model_bops_ex : forall pw ln2,
  exact_bops pw ln2 (fun a => a) (fun i => Some 0) (fun _ => None) ex_conv_store 1 = Ok (qz 10) /\
  exact_bops pw ln2 (fun a => a) (fun i => Some 0) (fun _ => Some (3%Z, 1 :: [2] ++ [2])) ex_conv_store 1 = Ok (qz 15).
Proof. intros. split; qvm. Qed.

(** C59: convolutions.  For inputs of equal width and no padding, the bit operations are the width times the bits
    of all weights, times parallel_factor, whatever the size of the input, stride, dilation and groups. *)
Theorem C59_conv_bops : forall ds cin_g m groups bi kbw pf, 0 < m -> 0 < groups -> length kbw = prodn (map d_k ds) * cin_g * (m * groups) ->
  Forall (fun d => exists n k s dil, d = valid_dim n k s dil /\ 0 < s /\ 0 < d_out d) ds ->
  conv_bops (conv_taps false ds cin_g (m * groups) groups) pf (conv_out_shape false ds (m * groups))
    (repeat bi (prodn (map d_in ds) * (cin_g * groups))) kbw = qz (pf * bi * fold_right Z.add 0 kbw)%Z.
Proof.
  intros ds cin_g m groups bi kbw pf Hm Hg Hk HD. unfold conv_bops.
  rewrite (conv_bits_valid false ds cin_g m groups bi kbw Hm Hg Hk) by (eapply Forall_impl; [|exact HD]; intros d [n [k [s [dil [-> [Hs _]]]]]]; apply valid_no_padding, Hs).
  unfold total_channels, conv_out_shape. cbn [tl]. rewrite removelast_last.
  assert (P : 0 < prodn (map d_out ds)).
  { clear Hk. induction HD as [|d ds [n [k [s [dil [_ [_ H]]]]]] _ IH]; cbn [map]; [cbn; lia|]. change (0 < d_out d * prodn (map d_out ds)). nia. }
  set (N := prodn (map d_out ds)) in *. clearbody N.
  replace (Z.of_nat N * (bi * zsum kbw) * pf)%Z with (pf * bi * fold_right Z.add 0 kbw * Z.of_nat N)%Z by (unfold zsum; lia).
  rewrite qz_mul. field. intros C. apply (qz_inj _ 0) in C. lia.
Qed.
Print Assumptions C59_conv_bops.

(** With padding (any geometry) it is at most that. *)
Theorem C59_conv_bops_padded : forall ds cin_g m groups bi kbw pf, 0 < m -> 0 < groups -> length kbw = prodn (map d_k ds) * cin_g * (m * groups) ->
  Forall (fun d => 0 < d_out d) ds -> (0 <= bi)%Z -> Forall (fun b => 0 <= b)%Z kbw -> (0 <= pf)%Z ->
  let b := conv_bops (conv_taps false ds cin_g (m * groups) groups) pf (conv_out_shape false ds (m * groups))
    (repeat bi (prodn (map d_in ds) * (cin_g * groups))) kbw in
  (qz 0 <= b)%Qc /\ (b <= qz (pf * bi * fold_right Z.add 0%Z kbw)%Z)%Qc.
Proof.
  intros ds cin_g m groups bi kbw pf Hm Hg Hk HD Hb HP Hpf. cbv zeta. unfold conv_bops.
  pose proof (conv_bits_le false ds cin_g m groups bi kbw Hm Hg Hk Hb HP) as [L U]. set (t := zsum (mac_bits _ _ _)) in *. clearbody t.
  unfold total_channels, conv_out_shape. cbn [tl]. rewrite removelast_last.
  assert (P : 0 < prodn (map d_out ds)).
  { clear Hk U. induction HD as [|d ds H _ IH]; cbn [map]; [cbn; lia|]. change (0 < d_out d * prodn (map d_out ds)). nia. }
  set (N := prodn (map d_out ds)) in *. clearbody N. assert (PN : (qz 0 < qz (Z.of_nat N))%Qc) by (apply qz_lt; lia).
  set (v := (qz (t * pf) / qz (Z.of_nat N))%Qc). assert (E : (v * qz (Z.of_nat N))%Qc = qz (t * pf)).
  { unfold v. field. intros C. rewrite C in PN. qlra. }
  clearbody v. split.
  - apply (qmul_le_r_inv _ _ (qz (Z.of_nat N)) PN). rewrite E, qz_0, Qcmult_0_l, <- qz_0. apply (proj2 (qz_le _ _)). nia.
  - apply (qmul_le_r_inv _ _ (qz (Z.of_nat N)) PN). rewrite E, <- qz_mul. apply (proj2 (qz_le _ _)). fold (zsum kbw). nia.
Qed.
Print Assumptions C59_conv_bops_padded.

(** 2-bit inputs, a 2x1 kernel of 1 input and 2 output channels: 2 * (1 + 2 + 3 + 4) per position. *)
Example C59_conv_ex :
  conv_bops (conv_taps false [valid_dim 5 2 2 2; valid_dim 3 1 1 1] 1 2 1) 3 (conv_out_shape false [valid_dim 5 2 2 2; valid_dim 3 1 1 1] 2) (repeat 2%Z 15) [1; 2; 3; 4]%Z = qz 60 /\
  conv_bops (conv_taps false [same_dim 3 3 1 1] 1 1 1) 1 (conv_out_shape false [same_dim 3 3 1 1] 1) (repeat 2%Z 3) [1; 1; 1]%Z = Q2Qc (14 # 3).
Proof. split; qvm. Qed.

(** With data_format channels_first, post_build takes the product over channels and all but the last
    spatial dimension instead of the spatial dimensions: the same convolution is reported with other BOPs. *)
Theorem C59_channels_first_refuted : exists ds cin_g cout groups bi kbw,
  Forall (fun d => exists n k s dil, d = valid_dim n k s dil /\ 0 < s /\ 0 < d_out d) ds /\
  length kbw = prodn (map d_k ds) * cin_g * cout /\
  conv_bops (conv_taps true ds cin_g cout groups) 1 (conv_out_shape true ds cout) (repeat bi (prodn (map d_in ds) * (cin_g * groups))) kbw <>
  conv_bops (conv_taps false ds cin_g cout groups) 1 (conv_out_shape false ds cout) (repeat bi (prodn (map d_in ds) * (cin_g * groups))) kbw.
Proof.
  exists [valid_dim 4 1 1 1; valid_dim 6 1 1 1], 1, 2, 1, 3%Z, [2; 2]%Z. split.
  - constructor; [exists 4, 1, 1, 1; split; [reflexivity|split; [lia|cbn; lia]]|]. constructor; [exists 6, 1, 1, 1; split; [reflexivity|split; [lia|cbn; lia]]|constructor].
  - split; [reflexivity|]. intros C. apply (f_equal this) in C. vm_compute in C. discriminate.
Qed.
Print Assumptions C59_channels_first_refuted.

(** The sums are taken in single precision, in an order left to TensorFlow and numpy: any order gives the exact
    count up to 2^24. *)
Theorem C59_float_sum_exact : forall t, Forall (fun v => 0 <= v)%Z (leaves_of t) -> (fold_right Z.add 0 (leaves_of t) <= 2 ^ 24)%Z ->
  fsum rn32 t = qz (fold_right Z.add 0 (leaves_of t))%Z.
Proof.
  assert (I : forall z, (0 <= z <= 2 ^ 24)%Z -> rn32 (qz z) = qz z).
  { intros z Hz. apply rn32_id. pose proof (float_grid z 0 ltac:(lia) ltac:(lia)) as F. rewrite pow2_0 in F. replace (qz z * qz 1)%Qc with (qz z) in F by (rewrite qz1; ring). exact F. }
  assert (NN : forall l, Forall (fun v => 0 <= v)%Z l -> (0 <= zsum l)%Z).
  { induction 1 as [|v l Hv _ IH]; [cbn; lia|]. rewrite zsum_cons. lia. }
  intros t. change (fold_right Z.add 0%Z) with zsum. induction t as [v|a IHa b IHb]; cbn [leaves_of fsum]; intros HP HB.
  - inversion HP; subst. cbn in *. rewrite Z.add_0_r in *. apply I. lia.
  - apply Forall_app in HP. destruct HP as [Pa Pb]. rewrite zsum_app in *. pose proof (NN _ Pa). pose proof (NN _ Pb).
    rewrite IHa, IHb by (assumption || lia). rewrite <- qz_add. apply I. lia.
Qed.
Print Assumptions C59_float_sum_exact.

Example C59_float_sum_ex : fsum rn32 (SNode (SNode (SLeaf 6) (SLeaf 24)) (SLeaf 12)) = qz 42 /\
  fsum rn32 (SNode (SLeaf (2 ^ 24)) (SLeaf 1)) <> qz (2 ^ 24 + 1).
Proof. split; [qvm|]. intros C. apply (f_equal this) in C. vm_compute in C. discriminate. Qed.

(** Tracing the network HQuantize -> HDense: both layers are counted, the first with 0. *)
Definition ex_net : klayer layer := Sub 1 [(Leaf (10, KQuant 0), [(0, 0)]); (Leaf (11, KH 1), [(1, 0)])] [(2, 0)].
Definition ex_net_store : store :=
  [mkO (mkL (Fn (fun x => hd [] x)) (hgq_build (mkT [1; 2] [qz 2; qz 2]) (Some [0%Z]) 0 true None) false (-1) [2]) false ALinear [[2]] (qz 0);
   mkO (mkL (Linear (matmul_taps 1 2 2) ex_kernel ex_kq None (-1)) (hgq_build (mkT [1; 2] [qz 1; qz 1]) (Some [0%Z]) 0 true None) false (-1) [2]) false AOther [[2]] (qz 0)].
Example C41_trace_returns_exact_bops_ex : forall pw ln2,
  rbind (trace_minmax pw ln2 (exact_bops pw ln2 (fun a => a) (fun i => if Nat.eqb i 1 then Some 0 else None) (fun _ => None)) ex_net
    [[[Q2Qc (-3 # 2); qz 0]; [qz 2; qz 0]]] 1 true (qz 1) false ex_net_store) (fun r => Ok (fst (fst r) :: map o_bops (snd r))) = Ok [qz 10; qz 0; qz 10].
Proof. qvm. Qed.
Example C41_without_counting_ex : forall pw ln2,
  rbind (trace_minmax pw ln2 (exact_bops pw ln2 (fun a => a) (fun i => if Nat.eqb i 1 then Some 0 else None) (fun _ => None)) ex_net
    [[[Q2Qc (-3 # 2); qz 0]; [qz 2; qz 0]]] 1 true (qz 1) true ex_net_store) (fun r => Ok (fst (fst r) :: map o_bops (snd r))) = Ok [qz (-1); qz 0; qz 0].
Proof. qvm. Qed.
