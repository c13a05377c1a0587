(** Whole layers and proxies in single precision (C65). *)
From Coq Require Import ZArith QArith Qcanon List Bool String Lia Permutation.
From Verif Require Import Base.Num Base.NumFacts Base.Tensor Model.FixedPoint Model.Quantizer Model.Layers Model.Float32 Model.FloatLayer
  Spec.Fixed Spec.Quant Spec.Layer Spec.Float Spec.FloatLayer Proofs.TensorP Proofs.RecordP Proofs.HistoryP Proofs.ShapeP Proofs.CallP
  Proofs.FixedPointP Proofs.QuantizerP Proofs.BitsP Proofs.FixedPointLayerP Proofs.SampleP Proofs.ProxyElemP Proofs.LayersP Proofs.Float32P Proofs.Float32Q Proofs.FloatSumP Proofs.FloatLayerP.
Import ListNotations.
Local Open Scope nat_scope.

Lemma linop32_nth acc ts w x e : e < length ts ->
  nth e (linop32 acc ts w x) (qz 0) = acc (map (fun ab => (nth (fst ab) x (qz 0), nth (snd ab) w (qz 0))) (nth e ts [])).
Proof.
  intros H. unfold linop32.
  match goal with |- nth e (map ?f ts) _ = _ => rewrite (nth_indep (map f ts) _ (f [])) by (rewrite map_length; exact H); rewrite (map_nth f) end. reflexivity.
Qed.
Lemma linop_nth ts w x e : e < length ts ->
  nth e (linop ts w x) (qz 0) = qsum (map (fun ab => nth (fst ab) x (qz 0) * nth (snd ab) w (qz 0))%Qc (nth e ts [])).
Proof.
  intros H. unfold linop.
  match goal with |- nth e (map ?f ts) _ = _ => rewrite (nth_indep (map f ts) _ (f [])) by (rewrite map_length; exact H); rewrite (map_nth f) end. reflexivity.
Qed.
Lemma linop32_length acc ts w x : length (linop32 acc ts w x) = length ts.
Proof. apply map_length. Qed.
Lemma bias_add32_length loc out b z : length (bias_add32 loc out b z) = length z.
Proof. unfold bias_add32. rewrite map_length, combine_length, seq_length. lia. Qed.
Lemma bias_add32_nth loc out b z e : e < length z ->
  nth e (bias_add32 loc out b z) (qz 0) = rn32 (nth e z (qz 0) + nth (chan loc out e) b (qz 0))%Qc.
Proof.
  intros H. unfold bias_add32.
  match goal with |- nth e (map ?f ?li) _ = _ =>
    rewrite (nth_indep (map f li) _ (f (0, qz 0))) by (rewrite map_length, combine_length, seq_length; lia); rewrite (map_nth f) end.
  rewrite nth_combine_seq by assumption. reflexivity.
Qed.

Lemma prods_map x w ps : map prod_of (map (fun ab : nat * nat => (nth (fst ab) x (qz 0), nth (snd ab) w (qz 0))) ps)
  = map (fun ab => nth (fst ab) x (qz 0) * nth (snd ab) w (qz 0))%Qc ps.
Proof. rewrite map_map. reflexivity. Qed.

(** The accumulator with and without bias. *)
Lemma acc_exact acc l ts w x e G : accumulator acc -> e < length ts -> exact_range G (terms l ts w None x e) ->
  nth e (linop32 acc ts w x) (qz 0) = nth e (linop ts w x) (qz 0) /\ nth e (linop ts w x) (qz 0) = qsum (terms l ts w None x e).
Proof.
  intros HA He H. rewrite linop32_nth, linop_nth by assumption. unfold terms in *. rewrite app_nil_r in *. split; [|reflexivity].
  rewrite <- prods_map in *. apply (sums_exact _ _ (HA _) G H).
Qed.
Lemma acc_bias_exact acc l ts w b b32 x e G : accumulator acc -> e < length ts -> exact_range G (terms l ts w (Some b) x e) ->
  nth (chan (l_loc l) (l_out l) e) b32 (qz 0) = nth (chan (l_loc l) (l_out l) e) b (qz 0) ->
  nth e (bias_add32 (l_loc l) (l_out l) b32 (linop32 acc ts w x)) (qz 0) = nth e (bias_add (l_loc l) (l_out l) b (linop ts w x)) (qz 0) /\
  nth e (bias_add (l_loc l) (l_out l) b (linop ts w x)) (qz 0) = qsum (terms l ts w (Some b) x e).
Proof.
  intros HA He H Eb. rewrite bias_add32_nth by (rewrite linop32_length; exact He). rewrite bias_add_nth by (rewrite linop_length; exact He).
  rewrite linop32_nth, linop_nth, Eb by assumption. unfold terms in *. rewrite <- prods_map in *. split.
  - apply (bias_exact G _ _ _ (HA _) H).
  - rewrite qsum_app. unfold qsum at 3. cbn [fold_right]. rewrite qz_0. ring.
Qed.

(** ** The layer *)
Lemma call32_samples q out xs (zf zf32 : list (list Qc) -> list Qc) : quantizer_shape q out -> bits_clipped q ->
  (forall x, length (zf32 x) = prodn out) ->
  (forall x e, In x xs -> e < prodn out -> nth e (zf32 x) (qz 0) = nth e (zf x) (qz 0) /\
     quantizes_exactly (Z.eqb (q_strategy q) 3) (qround_even (nth (group_of q out e) (data (q_fbw q)) (qz 0))) (nth e (zf x) (qz 0))) ->
  call32 q (batch_tensor out (map zf32 xs)) = Ok (batch_tensor out (map (fun x => qsample q out (zf x)) xs)).
Proof.
  intros [bw [Hs [Hb _]]] HB L H. unfold call32. rewrite (clip_id_fbw q HB).
  rewrite (bmap2_samples (qz 0) _ (q_fbw q) bw out) by (try assumption; apply zf_lengths, L). do 2 f_equal. rewrite map_map.
  apply map_ext_in. intros x Hx. unfold qsample. apply map_ext_in. intros e He. apply in_seq in He. destruct He as [_ He]. cbn in He.
  destruct (H x e Hx He) as [-> Q]. unfold group_of in *. rewrite Hs in *. cbn [tl] in *. apply forward32_exact. exact Q.
Qed.

Lemma finish32 pw ln2 acc l xs zf zf32 record nk nb na ys l' op' : quantizer_shape (l_paq l) (l_out l) -> bits_clipped (l_paq l) ->
  hforward pw ln2 l xs false record nk nb na = Ok (ys, l') ->
  pre_activation32 acc l xs = Ok (map zf32 xs) -> (forall x, length (zf32 x) = prodn (l_out l)) ->
  (forall x e, In x xs -> e < prodn (l_out l) -> nth e (zf32 x) (qz 0) = nth e (zf x) (qz 0) /\
     quantizes_exactly (Z.eqb (q_strategy (l_paq l)) 3) (qround_even (nth (group_of (l_paq l) (l_out l) e) (data (q_fbw (l_paq l))) (qz 0))) (nth e (zf x) (qz 0))) ->
  pre_activation pw ln2 l xs false nk nb = Ok (map zf xs, op') -> (forall x, length (zf x) = prodn (l_out l)) ->
  exists zs t y, pre_activation32 acc l xs = Ok zs /\ call32 (l_paq l) (batch_tensor (l_out l) zs) = Ok y /\
    call pw ln2 (l_paq l) t false record na = Ok (y, l_paq l') /\ ys = if l_relu l then map (map relu) (samples (l_out l) y) else samples (l_out l) y.
Proof.
  intros Hq HB E EP L H EP0 L0. apply (hforward_samples pw ln2 l xs record nk nb na ys l' zf op' Hq EP0 L0) in E. destruct E as [-> [_ [_ [_ [_ EC]]]]].
  rewrite (clip_id_fbw _ HB) in *. eexists. eexists. eexists. split; [exact EP|]. split; [apply (call32_samples (l_paq l) (l_out l) xs zf zf32); assumption|]. split; [exact EC|].
  rewrite samples_concat by (apply zf_lengths; intros; apply qsample_length).
  destruct (l_relu l); [rewrite map_map|]; reflexivity.
Qed.

Lemma layer32_call pw ln2 acc l w b xs record nk nb na ys l' : accumulator acc -> layer_ok l -> bits_clipped (l_paq l) ->
  parameters_exact l -> quantized_weights pw ln2 l w b -> layer_exact l w b xs ->
  hforward pw ln2 l xs false record nk nb na = Ok (ys, l') ->
  exists zs t y, pre_activation32 acc l xs = Ok zs /\ call32 (l_paq l) (batch_tensor (l_out l) zs) = Ok y /\
    call pw ln2 (l_paq l) t false record na = Ok (y, l_paq l') /\ ys = if l_relu l then map (map relu) (samples (l_out l) y) else samples (l_out l) y.
Proof.
  intros HA [Hq [NZ Hop]] HB HP HW HX E. unfold parameters_exact in HP. unfold quantized_weights in HW. unfold layer_exact in HX.
  assert (FR : forall e, frac_bits (l_paq l) (group_of (l_paq l) (l_out l) e) (qround_even (nth (group_of (l_paq l) (l_out l) e) (data (q_fbw (l_paq l))) (qz 0))))
    by (intros; apply nearest_even_ex).
  destruct (l_op l) as [ts kernel kq bias bl|g] eqn:EO.
  - destruct Hop as [Lt [[s Hk] Hb]]. destruct HP as [Wk [Wf [Bk [Ak Pb]]]]. destruct HW as [[wt [Ew ->]] Wb].
    destruct (kernel_call pw ln2 kernel kq s Hk) as [w' [kq' Ek]].
    unfold fused_qkernel in Ew. rewrite Ek in Ew. cbn [rbind fst] in Ew. assert (w' = wt) by congruence. subst w'.
    pose proof (call32_exact pw ln2 kq kernel _ wt kq' Wk Wf Bk Ak (Ek (fun _ => qz 0))) as E32.
    destruct bias as [bt|].
    + destruct Hb as [-> [c [C0 [Sb Hc]]]]. apply chan_axis_layer in Hc. destruct Pb as [Wbt Ab]. destruct Wb as [tb [Eb ->]].
      destruct (chan_facts _ _ _ Hc NZ) as [dims [Hd _]].
      assert (LR : length (shape (q_fbw (l_paq l))) = S (length (l_out l))).
      { destruct Hq as [bw [Hs [Hbb _]]]. rewrite Hs. destruct (bshape_length _ _ _ Hbb). cbn [length]. lia. }
      rewrite <- LR in Hd.
      rewrite (bias_forward_val pw ln2 (l_paq l) bt (l_loc l) c (l_out l) _ dims Hq Hc NZ Hd Sb) in Eb. assert (tb = mkT [c] (bias_q (l_paq l) dims c bt)) by congruence. subst tb. clear Eb.
      cbn [data] in HX.
      set (zf := fun x : list (list Qc) => bias_add (l_loc l) (l_out l) (bias_q (l_paq l) dims c bt) (linop ts (data wt) (hd [] x))).
      set (zf32 := fun x : list (list Qc) => bias_add32 (l_loc l) (l_out l) (bias_q (l_paq l) dims c bt) (linop32 acc ts (data wt) (hd [] x))).
      apply (finish32 pw ln2 acc l xs zf zf32 record nk nb na ys l' (Linear ts kernel kq' (Some bt) (l_loc l)) Hq HB E).
      * unfold pre_activation32. rewrite EO, E32. cbn [rbind].
           rewrite (bias_forward32_exact (l_paq l) bt (l_loc l) c (l_out l) dims Hq Hc NZ Hd Sb Wbt Ab). cbn [rbind data]. rewrite map_map. reflexivity.
      * intros x. unfold zf32. rewrite bias_add32_length, linop32_length. exact Lt.
      * intros x e Hx He. pose proof (HX x e _ Hx He (FR e)) as SE. pose proof SE as [_ [G [HG _]]].
           destruct (acc_bias_exact acc l ts (data wt) _ _ (hd [] x) e G HA ltac:(lia) HG eq_refl) as [A1 A2].
           split; [exact A1|]. unfold zf. rewrite A2. apply sum_quantizes. exact SE.
      * unfold pre_activation. rewrite EO, Ek. cbn [rbind fst snd].
        rewrite (bias_forward_val pw ln2 (l_paq l) bt (l_loc l) c (l_out l) nb dims Hq Hc NZ Hd Sb). cbn [rbind data]. rewrite map_map. reflexivity.
      * intros x. unfold zf. rewrite bias_add_length, linop_length. exact Lt.
    + subst b. set (zf := fun x : list (list Qc) => linop ts (data wt) (hd [] x)). set (zf32 := fun x : list (list Qc) => linop32 acc ts (data wt) (hd [] x)).
      apply (finish32 pw ln2 acc l xs zf zf32 record nk nb na ys l' (Linear ts kernel kq' None bl) Hq HB E).
      * unfold pre_activation32. rewrite EO, E32. reflexivity.
      * intros x. unfold zf32. rewrite linop32_length. exact Lt.
      * intros x e Hx He. pose proof (HX x e _ Hx He (FR e)) as SE. pose proof SE as [_ [G [HG _]]].
           destruct (acc_exact acc l ts (data wt) (hd [] x) e G HA ltac:(lia) HG) as [A1 A2].
           split; [exact A1|]. unfold zf. rewrite A2. apply sum_quantizes. exact SE.
      * unfold pre_activation. rewrite EO, Ek. reflexivity.
      * intros x. unfold zf. rewrite linop_length. exact Lt.
  - apply (finish32 pw ln2 acc l xs g g record nk nb na ys l' (Fn g) Hq HB E).
    + unfold pre_activation32. rewrite EO. reflexivity.
    + exact Hop.
    + intros x e Hx He. split; [reflexivity|]. exact (HX x e _ Hx He (FR e)).
    + unfold pre_activation. rewrite EO. reflexivity.
    + exact Hop.
Qed.

Lemma layer32 pw ln2 acc l w b xs record nk nb na ys l' : accumulator acc -> layer_ok l -> bits_clipped (l_paq l) ->
  parameters_exact l -> quantized_weights pw ln2 l w b -> layer_exact l w b xs ->
  hforward pw ln2 l xs false record nk nb na = Ok (ys, l') -> hforward32 acc l xs = Ok ys.
Proof.
  intros HA HL HB HP HW HX E. destruct (layer32_call pw ln2 acc l w b xs record nk nb na ys l' HA HL HB HP HW HX E) as [zs [t [y [E1 [E2 [_ ->]]]]]].
  unfold hforward32. rewrite E1. cbn [rbind]. rewrite E2. reflexivity.
Qed.

(** ** The proxy *)
Lemma keras32 pw ln2 acc l : accumulator acc -> layer_ok l -> parameters_exact l ->
  exists g g32, keras_op pw ln2 l = Ok g /\ keras_op32 acc l = Ok g32 /\
    (forall x, length (g x) = prodn (l_out l)) /\ (forall x, length (g32 x) = prodn (l_out l)) /\
    forall w b, deployed_weights pw ln2 l w b -> forall x e G, e < prodn (l_out l) ->
      exact_range G (match l_op l with Fn g => [nth e (g x) (qz 0)] | Linear ts _ _ _ _ => terms l ts w b (hd [] x) e end) ->
      nth e (g32 x) (qz 0) = nth e (g x) (qz 0) /\ exists m, nth e (g x) (qz 0) = (qz m * pow2 G)%Qc /\ (- 2 ^ 23 <= m <= 2 ^ 23)%Z.
Proof.
  intros HA [Hq [NZ Hop]] HP. unfold parameters_exact in HP. unfold deployed_weights, keras_op, keras_op32.
  destruct (l_op l) as [ts kernel kq bias bl|g] eqn:EO.
  - destruct Hop as [Lt [[s Hk] Hb]]. destruct HP as [Wk [Wf [Bk [Ak Pb]]]].
    destruct (kernel_call pw ln2 kernel kq s Hk) as [wt [kq' Ek]].
    pose proof (call32_exact pw ln2 kq kernel _ wt kq' Wk Wf Bk Ak (Ek (fun _ => qz 0))) as E32.
    assert (EF : fused_qkernel pw ln2 kernel kq = Ok wt) by (unfold fused_qkernel; rewrite Ek; reflexivity).
    rewrite EF, E32. cbn [rbind]. destruct bias as [bt|].
    + destruct Hb as [-> [c [C0 [Sb Hc]]]]. apply chan_axis_layer in Hc. destruct Pb as [Wbt Ab].
      destruct (chan_facts _ _ _ Hc NZ) as [dims [Hd [_ [_ CH]]]].
      assert (LR : length (shape (q_fbw (l_paq l))) = S (length (l_out l))).
      { destruct Hq as [bw [Hs [Hbb _]]]. rewrite Hs. destruct (bshape_length _ _ _ Hbb). cbn [length]. lia. }
      rewrite <- LR in Hd.
      destruct (fused_qbias32_spec pw ln2 l ts kernel kq bt (l_loc l) c dims EO Hq Hc NZ Hd Sb Wbt Ab) as [qb [qb32 [EQ [EQ32 HQ]]]].
      rewrite EQ, EQ32. cbn [rbind]. eexists. eexists. split; [reflexivity|]. split; [reflexivity|].
      split; [intros x; rewrite bias_add_length, linop_length; exact Lt|]. split; [intros x; rewrite bias_add32_length, linop32_length; exact Lt|].
      intros w b [[t [Et ->]] [tb [Eb ->]]] x e G He HG. assert (t = wt) by congruence. assert (tb = qb) by congruence. subst t tb.
      destruct (CH e He) as [_ CL].
      assert (FB : float32 (nth (chan (l_loc l) (l_out l) e) (data qb) (qz 0))).
      { unfold terms in HG. apply exact_range_app in HG. destruct HG as [_ HG]. apply exact_float in HG. unfold qsum in HG. cbn [fold_right] in HG.
        rewrite qz_0, Qcplus_0_r in HG. exact HG. }
      assert (EB : nth (chan (l_loc l) (l_out l) e) (data qb32) (qz 0) = nth (chan (l_loc l) (l_out l) e) (data qb) (qz 0)).
      { destruct (HQ _ CL) as [H|H]; rewrite H; [reflexivity|]. apply rn32_id. exact FB. }
      destruct (acc_bias_exact acc l ts (data wt) (data qb) (data qb32) (hd [] x) e G HA ltac:(lia) HG EB) as [A1 A2].
      split; [exact A1|]. rewrite A2. apply exact_value. exact HG.
    + eexists. eexists. split; [reflexivity|]. split; [reflexivity|].
      split; [intros x; rewrite linop_length; exact Lt|]. split; [intros x; rewrite linop32_length; exact Lt|].
      intros w b [[t [Et ->]] ->] x e G He HG. assert (t = wt) by congruence. subst t.
      destruct (acc_exact acc l ts (data wt) (hd [] x) e G HA ltac:(lia) HG) as [A1 A2].
      split; [exact A1|]. rewrite A2. apply exact_value. exact HG.
  - exists g, g. split; [reflexivity|]. split; [reflexivity|]. split; [exact Hop|]. split; [exact Hop|].
    intros w b _ x e G He HG. split; [reflexivity|]. destruct (exact_value _ _ HG) as [m [E B]].
    exists m. split; [|exact B]. rewrite <- E. unfold qsum. cbn [fold_right]. rewrite qz_0, Qcplus_0_r. reflexivity.
Qed.

(** The homogeneous format of the ReLU chain is at least as fine as each of the others. *)
Lemma first_finer q g bits fadd : calibrated q -> g < length (data (q_fbw q)) -> (fadd = 0 \/ fadd = 1)%Z ->
  length bits = length (data (q_fbw q)) -> (forall g d, g < length (data (q_fbw q)) -> nth g bits d = bits_at q false g) ->
  let K := zmax_list (map (fun t => fst (fst t)) bits) in
  let I := zmax_list (map (fun t => snd (fst t)) bits) in
  let F := zmax_list (map snd bits) in
  let c1 := init_elem (mkCfg K (i8 (i8 (i8 (K + I) + F) + fadd)) (i8 (K + I))) in
  let c2 := init_elem (kbi (bits_at q true g)) in
  FixedPoint.bits c2 = 0%Z \/ (-32 <= FixedPoint.bits c2 - ints c2 <= FixedPoint.bits c1 - ints c1)%Z.
Proof.
  intros HC Hg HF LB HB K I F c1 c2.
  destruct (group_bits q g HC Hg) as [r [mn [mx [Hr [Hb [E1 [E2 [G1 [G2 [Hle [B1 [B2 [D DP]]]]]]]]]]]]].
  destruct DP as [[Mx EP]|[Mx [EP FB]]].
  - left. unfold c2. rewrite EP, init_kbi_zero. reflexivity.
  - right. unfold c2. rewrite EP. rewrite init_kbi by lia.
    destruct D as [[-> [-> _]]|[NZ [k [i [EB [Hk [Hi [Hki [Lo [Up _]]]]]]]]]]; [exfalso; qlra|].
    assert (INB : In (k, i, r) bits).
    { rewrite <- EB, <- (HB g (0, 0, 0)%Z Hg). apply nth_In. lia. }
    assert (BND : forall t, In t bits -> (fst (fst t) <= 1 /\ snd (fst t) <= 32 /\ snd t <= 93)%Z /\ (fst (fst t) = 0 \/ fst (fst t) = 1)%Z).
    { intros t Ht. apply (In_nth _ _ (0, 0, 0)%Z) in Ht. destruct Ht as [g' [Hg' Et]]. rewrite LB in Hg'. rewrite HB in Et by assumption.
      destruct (group_bits q g' HC Hg') as [r' [mn'' [mx'' [_ [Hb' [_ [_ [_ [_ [_ [_ [_ [D' _]]]]]]]]]]]]].
      destruct D' as [[_ [_ E]]|[_ [k' [i' [E [Hk' [Hi' _]]]]]]]; rewrite E in Et; subst t; cbn [fst snd]; lia. }
    assert (NE : bits <> []) by (intros ->; destruct INB).
    assert (NEm : forall f : Z * Z * Z -> Z, map f bits <> []) by (intros f C; apply map_eq_nil in C; auto).
    assert (KB : (k <= K)%Z) by (apply zmax_list_ge; apply (in_map (fun t : Z * Z * Z => fst (fst t)) bits (k, i, r)); exact INB).
    assert (IB : (i <= I)%Z) by (apply zmax_list_ge; apply (in_map (fun t : Z * Z * Z => snd (fst t)) bits (k, i, r)); exact INB).
    assert (FBd : (r <= F)%Z) by (apply zmax_list_ge; apply (in_map (snd (A := Z * Z) (B := Z)) bits (k, i, r)); exact INB).
    assert (KU : K = 0%Z \/ K = 1%Z).
    { pose proof (zmax_list_in _ (NEm (fun t => fst (fst t)))) as H. apply in_map_iff in H. destruct H as [t [Et Ht]].
      unfold K. rewrite <- Et. apply BND, Ht. }
    assert (IU : (I <= 32)%Z) by (apply zmax_le; [apply NEm|]; intros x Hx; apply in_map_iff in Hx; destruct Hx as [t [<- Ht]]; apply BND, Ht).
    assert (FU : (F <= 93)%Z) by (apply zmax_le; [apply NEm|]; intros x Hx; apply in_map_iff in Hx; destruct Hx as [t [<- Ht]]; apply BND, Ht).
    assert (FI : (flog2 mx + 1 <= i)%Z).
    { assert (flog2 mx < i)%Z; [|lia]. destruct (flog2_spec mx Mx) as [S1 S2].
      apply pow2_lt_inv. apply (Qcle_lt_trans _ mx); assumption. }
    unfold c1. rewrite (i8_small (K + I)) by lia. rewrite (i8_small (K + I + F)) by lia.
    rewrite (i8_small (K + I + F + fadd)) by lia.
    rewrite init_elem_nz by (cbn [FixedPoint.bits]; lia). cbn [FixedPoint.bits ints]. lia.
Qed.

Lemma gfixed32_zero rnd sat k i x : gfixed32 rnd sat k 0 i x = qz 0.
Proof. unfold gfixed32. cbv zeta. cbn [Z.eqb]. rewrite qz_0. ring. Qed.

Definition rnd_fun32 (l : hlayer) : Qc -> Qc :=
  if (negb (Z.eqb (q_strategy (l_paq l)) 3) && negb (can_bias_cover_rnd l))%bool then RND32 else TRN32.
Lemma rnd_mode_fun32 l : RND_MAP32 (rnd_mode l) = Some (rnd_fun32 l).
Proof. unfold rnd_mode, rnd_fun32. destruct (_ && _)%bool; reflexivity. Qed.

Lemma proxy32 pw ln2 acc l S : accumulator acc -> layer_ok l -> parameters_exact l -> calibrated (l_paq l) ->
  S = "WRAP"%string \/ S = "SAT"%string ->
  exists p p32, to_proxy pw ln2 l S = Ok p /\ to_proxy32 acc l S = Ok p32 /\
    forall w b xs, deployed_weights pw ln2 l w b -> proxy_exact l p w b xs -> pcall32 p32 xs = pcall p xs.
Proof.
  intros HA HL HP HC HS. destruct (keras32 pw ln2 acc l HA HL HP) as [g [g32 [EK [EK32 [LG [LG32 HK]]]]]].
  pose proof HL as [Hq [NZ _]].
  assert (exists sat sat32, SAT_MAP S = Some sat /\ SAT_MAP32 S = Some sat32 /\ modes (rnd_fun32 l) (rnd_fun l) sat32 sat /\ modes TRN32 TRN sat32 sat)
    as [sat [sat32 [Hsat [Hsat32 [M MT]]]]].
  { unfold rnd_fun32, rnd_fun. destruct HS as [->| ->]; eexists; eexists; (split; [reflexivity|]); (split; [reflexivity|]); destruct (_ && _)%bool; split; constructor. }
  pose proof (rnd_mode_fun l) as RM. pose proof (rnd_mode_fun32 l) as RM32.
  set (q := l_paq l) in *.
  assert (GL : forall e, e < prodn (l_out l) -> group_of q (l_out l) e < length (data (q_fbw q))) by (intros; apply group_lt; assumption).
  destruct (get_bits_at q (l_out l) false Hq HC) as [bf [EBf [LBf HBf]]].
  destruct (get_bits_at q (l_out l) true Hq HC) as [bt [EBt [LBt HBt]]].
  destruct Hq as [bw [Hs [Hbb [Hlen _]]]].
  assert (NC : forall bits pos e, length bits = length (data (q_fbw q)) ->
            (forall g d, g < length (data (q_fbw q)) -> nth g bits d = bits_at q pos g) -> e < prodn (l_out l) ->
            nth (bidx bw (l_out l) e) (map init_elem (map kbi bits)) (mkCfg 0 0 0) = init_elem (kbi (bits_at q pos (group_of q (l_out l) e)))).
  { intros bits pos e L H He. specialize (GL e He). unfold group_of in *. rewrite Hs in *. cbn [tl] in *.
    rewrite (nth_indep _ _ (init_elem (kbi (0, 0, 0)%Z))) by (rewrite !map_length, L; exact GL).
    rewrite (map_nth init_elem), (map_nth kbi). rewrite H by exact GL. reflexivity. }
  unfold to_proxy, to_proxy32. rewrite EK, EK32. cbn [rbind]. unfold layer_quantizer, first_quantizer. fold q.
  destruct (l_relu l) eqn:ER.
  - rewrite EBf, EBt. cbn [rbind]. eexists. eexists. split; [reflexivity|]. split; [reflexivity|].
    intros w b xs HW HX. unfold pcall, pcall32. cbn [p_chain p_out p_op].
    match goal with |- context [fpq_call ?f false (batch_tensor _ (map g xs))] => set (q1 := f) end.
    match goal with |- context [fpq_call ?f false (tmap _ _)] => set (q2 := f) end.
    set (c1 := nth 0 (data (cfgs q1)) (mkCfg 0 0 0)).
    rewrite (fpq_samples_scalar q1 TRN sat c1 (l_out l) (map g xs)); [|reflexivity|exact Hsat|reflexivity|exact (zf_lengths g _ xs LG)].
    assert (F1 : fpq_call32 q1 (batch_tensor (l_out l) (map g32 xs)) =
      Ok (batch_tensor (l_out l) (map (map (fun v => gfixed32 TRN32 sat32 (kn c1) (bits c1) (ints c1) v)) (map g32 xs)))).
    { unfold fpq_call32. change (RND_MAP32 (rnd_name q1)) with (Some TRN32). change (sat_name q1) with S. rewrite Hsat32.
      change (cfgs q1) with (mkT (@nil nat) [c1]). apply (bmap2_scalar _ (fun v c => gfixed32 TRN32 sat32 (kn c) (bits c) (ints c) v)). exact (zf_lengths g32 _ xs LG32). }
    rewrite F1. cbn [rbind]. rewrite !tmap_batch, !map_map.
    rewrite (fpq_samples q2 (rnd_fun l) sat bw (l_out l)); [|exact RM|exact Hsat|exact Hs|exact Hbb|].
    2:{ apply zf_lengths. intros x. rewrite !map_length. apply LG. }
    unfold fpq_call32. change (rnd_name q2) with (rnd_mode l). change (sat_name q2) with S. rewrite RM32, Hsat32.
    rewrite (bmap2_samples _ _ (cfgs q2) bw (l_out l)); [|exact Hs|exact Hbb|apply zf_lengths; intros x; rewrite !map_length; apply LG32].
    cbn [rbind]. rewrite !map_map.
    rewrite samples_concat by (apply zf_lengths; intros x; rewrite map_length, seq_length; reflexivity).
    rewrite samples_concat by (apply zf_lengths; intros x; apply fsample_length).
    f_equal. apply map_ext_in. intros x Hx. unfold fsample. apply map_ext_in. intros e He. apply in_seq in He. destruct He as [_ He]. cbn in He.
    destruct (HX x e Hx He) as [G [HG HF]]. destruct (HK w b HW x e G He HG) as [EG [m [Em Bm]]].
    unfold formats_at in HF. cbn [p_chain] in HF. fold q in HF. unfold group_of in HF. rewrite Hs in HF. cbn [tl] in HF.
    apply Forall_app in HF. destruct HF as [HF1 HF2]. apply Forall_inv in HF2. change (data (cfgs q1)) with [c1] in HF1. apply Forall_inv in HF1.
    set (c2 := nth (bidx bw (l_out l) e) (data (cfgs q2)) (mkCfg 0 0 0)) in *.
    match goal with |- gfixed32 _ _ _ _ _ (nth e (map ?f1 (map ?f2 (g32 x))) _) = fval _ _ _ (nth e (map ?f3 (map ?f4 (g x))) _) =>
      rewrite (nth_indep (map f1 (map f2 (g32 x))) _ (f1 (f2 (qz 0)))) by (rewrite !map_length, LG32; exact He); rewrite (map_nth f1), (map_nth f2);
      rewrite (nth_indep (map f3 (map f4 (g x))) _ (f3 (f4 (qz 0)))) by (rewrite !map_length, LG; exact He); rewrite (map_nth f3), (map_nth f4) end.
    rewrite EG, Em. destruct HF1 as [K1 [W1 [N1 S1]]]. destruct HF2 as [K2 [W2 [N2 S2]]].
    destruct (gfixed32_exact TRN32 TRN sat32 sat c1 G m MT (conj K1 (conj W1 N1)) Bm S1) as [A1 [m1 [A2 B1]]]. rewrite A1.
    set (fadd := if String.eqb (rnd_mode l) "TRN" then 0%Z else if String.eqb (rnd_mode l) "RND" then 1%Z else 2%Z).
    assert (FA : (fadd = 0 \/ fadd = 1)%Z) by (unfold fadd, rnd_mode; destruct (_ && _)%bool; [right|left]; reflexivity).
    pose proof (first_finer q (group_of q (l_out l) e) bf fadd HC (GL e He) FA LBf HBf) as FF. cbv zeta in FF.
    rewrite <- (NC bt true e LBt HBt He) in FF. change (nth (bidx bw (l_out l) e) (map init_elem (map kbi bt)) (mkCfg 0 0 0)) with c2 in FF.
    match type of FF with context [init_elem (mkCfg ?a ?b' ?c')] => change (init_elem (mkCfg a b' c')) with c1 in FF end.
    destruct FF as [Z2|FF].
    + rewrite (zero_width_relu (rnd_fun l) sat c2 _ Z2). rewrite Z2. apply gfixed32_zero.
    + rewrite A2. assert (ERel : exists m2, relu (qz m1 * pow2 (- (bits c1 - ints c1)))%Qc = (qz m2 * pow2 (- (bits c1 - ints c1)))%Qc /\ (- 2 ^ 23 <= m2 <= 2 ^ 23)%Z).
      { unfold relu. destruct (qmax_spec (qz m1 * pow2 (- (bits c1 - ints c1)))%Qc (qz 0)) as [[_ ->]|[_ ->]]; [|exists m1; auto].
        exists 0%Z. split; [rewrite qz_0; ring|lia]. }
      destruct ERel as [m2 [-> B2]].
      apply (gfixed32_exact (rnd_fun32 l) (rnd_fun l) sat32 sat c2 (- (bits c1 - ints c1)) m2 M (conj K2 (conj W2 N2)) B2). change (-100 <= bits c1 - ints c1 <= 100)%Z in N1. lia.
  - rewrite EBf. cbn [rbind]. eexists. eexists. split; [reflexivity|]. split; [reflexivity|].
    intros w b xs HW HX. unfold pcall, pcall32. cbn [p_chain p_out p_op].
    match goal with |- context [fpq_call ?f false _] => set (q1 := f) end.
    rewrite (fpq_samples q1 (rnd_fun l) sat bw (l_out l)); [|exact RM|exact Hsat|exact Hs|exact Hbb|apply zf_lengths, LG].
    unfold fpq_call32. change (rnd_name q1) with (rnd_mode l). change (sat_name q1) with S. rewrite RM32, Hsat32.
    rewrite (bmap2_samples _ _ (cfgs q1) bw (l_out l)); [|exact Hs|exact Hbb|apply zf_lengths, LG32].
    cbn [rbind]. rewrite !map_map.
    rewrite samples_concat by (apply zf_lengths; intros x; rewrite map_length, seq_length; reflexivity).
    rewrite samples_concat by (apply zf_lengths; intros x; apply fsample_length).
    f_equal. apply map_ext_in. intros x Hx. unfold fsample. apply map_ext_in. intros e He. apply in_seq in He. destruct He as [_ He]. cbn in He.
    destruct (HX x e Hx He) as [G [HG HF]]. destruct (HK w b HW x e G He HG) as [EG [m [Em Bm]]].
    unfold formats_at in HF. cbn [p_chain] in HF. fold q in HF. unfold group_of in HF. rewrite Hs in HF. cbn [tl] in HF. apply Forall_inv in HF.
    rewrite EG, Em. destruct HF as [K1 [W1 [N1 S1]]].
    apply (gfixed32_exact (rnd_fun32 l) (rnd_fun l) sat32 sat _ G m M (conj K1 (conj W1 N1)) Bm S1).
Qed.
