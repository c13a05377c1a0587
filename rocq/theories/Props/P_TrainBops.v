(** C61: the bit operations a layer reports during training and calls. *)
From Coq Require Import ZArith QArith Qcanon List Bool Lia Arith.
From Verif Require Import Base.Num Base.NumFacts Base.Tensor Base.Compute Model.FixedPoint Model.Quantizer Model.Layers Model.Bops Model.TrainBops
  Spec.Fixed Spec.Quant Spec.History Spec.Layer Spec.Bops Proofs.TensorP Proofs.QuantizerP Proofs.RecordP Proofs.BitsP Proofs.SampleP Proofs.LayersP
  Proofs.BopsP Proofs.BopsL Proofs.CallP Proofs.TrainBopsP.
Import ListNotations.
Local Open Scope nat_scope.

(** C61: the trained bitwidth of a weight.  When the leading axes of the kernel share their bitwidths, it is the least
    number of magnitude bits that holds every weight of the group, so one weight of the group sets the price of all. *)
Theorem C61_shared_kernel_bits : forall kq qk m pre rest, prefix_skip (q_skip kq) m -> length pre = m -> shape qk = pre ++ rest ->
  wf_tensor qk -> reg_ok m rest (q_fbw kq) ->
  exists kb, trained_kernel_bw kq qk = Ok kb /\ shape kb = shape qk /\ length (data kb) = prodn (shape qk) /\
  forall p r, p < prodn (shape qk) -> nearest_even (nth (p mod prodn rest) (data (q_fbw kq)) (qz 0)) r ->
    magnitude_bits r (in_group (prodn rest) (p mod prodn rest) (data qk)) (nth p (data kb) 0%Z).
Proof. exact trained_bits. Qed.
Print Assumptions C61_shared_kernel_bits.

(** C61: at the same state, the value of bops after a call is at least the exact count. *)
Theorem C61_bops_over_approximate : forall pw ln2 prev ts kernel kq bias bl paq relu_act loc out w m pre rest,
  quantizer_shape (l_paq prev) (l_out prev) -> calibrated (l_paq prev) ->
  bits_clipped kq -> prefix_skip (q_skip kq) m -> length pre = m -> shape kernel = pre ++ rest -> reg_ok m rest (q_fbw kq) ->
  (forall ps ab, In ps ts -> In ab ps -> fst ab < prodn (l_out prev) /\ snd ab < prodn (shape kernel)) ->
  forward pw ln2 kq kernel false false (fun _ => qz 0) = Ok (w, kq) ->
  (forall v, In v (data w) -> on_grid 31 v /\ (qabs v < pow2 64)%Qc) ->
  let l := mkL (Linear ts kernel kq bias bl) paq relu_act loc out in
  exists t e, called_bops pw ln2 prev l = Ok t /\ layer_bops pw ln2 (fun a => a) prev l = Ok e /\ (0 <= e <= t)%Z.
Proof.
  intros pw ln2 prev ts kernel kq bias bl paq ra loc out w m pre rest Hq HC Hcl Hp Hm Hs HR HT Hw HG l.
  destruct (act_bw_exact_at prev Hq HC) as [ie [Ee [_ Ne]]]. destruct (act_bw_spec prev Hq) as [it [Et [_ [_ Nt]]]].
  destruct (forward_grid _ _ _ _ _ _ _ _ _ Hw Hm Hs HR) as [_ [Sw [Lw Gw]]].
  destruct (trained_bits kq w m pre rest Hp Hm Sw Lw HR) as [kb [Ek [_ [_ Nk]]]].
  unfold called_bops, layer_bops, l. cbn [l_op]. unfold layer_kernel_bw, call. rewrite (clip_id_fbw _ Hcl), Hw. cbn [rbind fst snd].
  rewrite Et, Ee, Ek. cbn [rbind]. eexists. eexists. split; [reflexivity|]. split; [reflexivity|].
  assert (T : forall ps ab, In ps ts -> In ab ps ->
    (0 <= nth (fst ab) (data ie) 0 * nth (snd ab) (kernel_bw_exact (fun a => a) (data w)) 0 <= nth (fst ab) (data it) 0 * nth (snd ab) (data kb) 0)%Z).
  { intros ps ab H1 H2. destruct (HT ps ab H1 H2) as [A B].
    rewrite Ne, Nt by assumption. unfold abw_at.
    assert (GL : group_of (l_paq prev) (l_out prev) (fst ab) < length (data (q_fbw (l_paq prev)))) by (apply group_lt; assumption).
    pose proof (act_widths (l_paq prev) (l_relu prev) _ HC GL) as [A1 _].
    assert (B' : snd ab < prodn (shape w)) by congruence.
    destruct (nth_error (data w) (snd ab)) as [v|] eqn:Ev; [|apply nth_error_None in Ev; lia].
    pose proof (kernel_bits_at _ _ _ HG Ev) as W. pose proof (nearest_even_ex (nth (snd ab mod prodn rest) (data (q_fbw kq)) (qz 0))) as Hr.
    assert (PR : prodn rest <> 0) by (rewrite Sw, prodn_app in B'; nia).
    pose proof (weight_le_magnitude _ _ _ _ _ W (Nk _ _ B' Hr) (in_group_mod _ _ _ _ _ PR Ev eq_refl) (Gw _ _ _ Ev Hr)).
    pose proof (weight_nonneg _ _ W). nia. }
  unfold mac_bits. split.
  - apply zsum_map_nonneg. intros ps H1. apply zsum_map_nonneg. intros ab H2. apply (T ps ab H1 H2).
  - apply zsum_map_le. intros ps H1. apply zsum_map_le. intros ab H2. apply (T ps ab H1 H2).
Qed.
Print Assumptions C61_bops_over_approximate.

(** C61 fails when an axis behind an unshared one is shared: get_bits drops the shared axes (no keepdims), so the integer
    bits of row b are added to the fractional bits of row a.  With one bitwidth per row of a 2x2 kernel whose rows need
    4 and 1 bits, weights that need 4 bits are priced at 0 and the reported bit operations can be below the exact ones; a 2x3
    kernel raises, in every call. *)
Definition row_kq (f0 f1 : Z) : hgq := hgq_build (mkT [2; 1] [qz f0; qz f1]) (Some [1%Z]) 0 true None.
Definition two_inputs : hlayer := mkL (Fn (fun x => hd [] x))
  (with_minmax (hgq_build (mkT [1; 2] [qz 0; qz 0]) (Some [0%Z]) 0 true None)
     (mkT [1; 2] [Fin (qz 0); Fin (qz 0)]) (mkT [1; 2] [Fin (qz 7); Fin (qz 1)])) true (-1) [2].
Definition row_layer (kernel : tensor Qc) (u : nat) : hlayer :=
  mkL (Linear (matmul_taps 1 2 u) kernel (row_kq 0 4) None (-1)) (hgq_build (mkT [1; u] (repeat (qz 0) u)) (Some [0%Z]) 0 true None) false (-1) [u].
Definition k22 : tensor Qc := mkT [2; 2] [qz 15; qz 15; Q2Qc (1 # 16); Q2Qc (1 # 16)].
Theorem C61_inner_axis_refuted : forall pw ln2,
  trained_kernel_bw (row_kq 0 4) k22 = Ok (mkT [2; 2] [4; 0; 8; 1]%Z) /\
  kernel_bw_exact (fun a => a) (data k22) = [4; 4; 1; 1]%Z /\
  called_bops pw ln2 two_inputs (row_layer k22 2) = Ok 21%Z /\
  layer_bops pw ln2 (fun a => a) two_inputs (row_layer k22 2) = Ok 26%Z /\
  (forall kernel, shape kernel = [2; 3] -> called_bops pw ln2 two_inputs (row_layer kernel 3) = Raise).
Proof.
  intros. do 4 (split; [vm_compute; reflexivity|]). intros kernel Hs.
  unfold called_bops. cbn [row_layer l_op].
  destruct (call pw ln2 (row_kq 0 4) kernel false false (fun _ => qz 0)) as [[y q]|] eqn:E; [|reflexivity]. cbn [rbind fst snd].
  unfold call in E. destruct (forward_elems _ _ _ _ _ _ _ _ _ E) as [B [_ [_ [Q _]]]]. rewrite (Q eq_refl). rewrite Hs in B.
  assert (Sy : Some [2; 3] = Some (shape y)) by exact B. injection Sy as Sy. symmetry in Sy.
  destruct (act_bw two_inputs) as [a|]; [|reflexivity]. cbn [rbind].
  assert (R : trained_kernel_bw (clip_fbw (row_kq 0 4)) y = Raise); [|rewrite R; reflexivity].
  destruct y as [sy dy]. cbn [shape] in Sy. subst sy. reflexivity.
Qed.
Print Assumptions C61_inner_axis_refuted.

(** A kernel with one bitwidth per column: the group of column 0 is priced by its largest weight. *)
Definition col_kq : hgq := hgq_build (mkT [1; 2] [qz 2; qz 0]) (Some [0%Z]) 0 true None.
Definition col_kernel : tensor Qc := mkT [2; 2] [Q2Qc (7 # 4); qz 3; Q2Qc (1 # 3); qz (-4)].
Definition col_layer : hlayer :=
  mkL (Linear (matmul_taps 1 2 2) col_kernel col_kq None (-1)) (hgq_build (mkT [1; 2] (repeat (qz 0) 2)) (Some [0%Z]) 0 true None) false (-1) [2].
Example C61_ex : forall pw ln2,
  quantizer_shape (l_paq two_inputs) (l_out two_inputs) /\ calibrated (l_paq two_inputs) /\
  bits_clipped col_kq /\ prefix_skip (q_skip col_kq) 1 /\ reg_ok 1 [2] (q_fbw col_kq) /\
  rbind (forward pw ln2 col_kq col_kernel false false (fun _ => qz 0)) (fun r => Ok (fst r)) = Ok (mkT [2; 2] [Q2Qc (7 # 4); qz 3; Q2Qc (1 # 4); qz (-4)]) /\
  trained_kernel_bw col_kq (mkT [2; 2] [Q2Qc (7 # 4); qz 3; Q2Qc (1 # 4); qz (-4)]) = Ok (mkT [2; 2] [3; 3; 3; 3]%Z) /\
  called_bops pw ln2 two_inputs col_layer = Ok 24%Z /\ layer_bops pw ln2 (fun a => a) two_inputs col_layer = Ok 17%Z /\
  called_bops_scaled pw ln2 (Some (4%Z, [1; 2; 1])) two_inputs col_layer = Ok (qz 48).
Proof.
  intros. split; [exists [2]; repeat split|]. split.
  { intros g Hg. exists 0%Z. destruct g as [|[|g]]; [exists (qz 0), (qz 7)|exists (qz 0), (qz 1)|cbn in Hg; lia];
      (split; [exact (nearest_even_ex (qz 0))|]; split; [lia|]; split; [reflexivity|]; split; [reflexivity|];
       split; [exists 0%Z; qvm|]; split; [eexists; symmetry; apply Qcmult_1_r|]; split; [vm_compute; discriminate|]; split; vm_compute; [discriminate|reflexivity]). }
  split; [exact I|]. split; [left; reflexivity|]. split; [split; reflexivity|].
  split; [qvm|]. split; [vm_compute; reflexivity|]. split; [vm_compute; reflexivity|]. split; [vm_compute; reflexivity|]. qvm.
Qed.
