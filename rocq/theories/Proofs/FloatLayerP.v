(** Layers and proxies evaluated in single precision (C65). *)
From Coq Require Import ZArith QArith Qcanon List Bool String Lia Permutation.
From Verif Require Import Base.Num Base.NumFacts Base.Tensor Model.FixedPoint Model.Quantizer Model.Layers Model.Float32 Model.FloatLayer
  Spec.Fixed Spec.Quant Spec.Layer Spec.Float Spec.FloatLayer Proofs.TensorP Proofs.RecordP Proofs.HistoryP Proofs.ShapeP Proofs.CallP
  Proofs.FixedPointP Proofs.QuantizerP Proofs.SampleP Proofs.LayersP Proofs.Float32P Proofs.Float32Q Proofs.FloatSumP.
Import ListNotations.
Local Open Scope nat_scope.

(** ** Element-wise operations on a batch *)
Lemma bmap2_samples {B} (db : B) (f : Qc -> B -> Qc) (t : tensor B) bw out zs :
  shape t = 1 :: bw -> bshape out bw = Some out -> Forall (fun z => length z = prodn out) zs ->
  bmap2 (qz 0) db f (batch_tensor out zs) t =
  Ok (batch_tensor out (map (fun z => map (fun e => f (nth e z (qz 0)) (nth (bidx bw out e) (data t) db)) (seq 0 (prodn out))) zs)).
Proof.
  intros Hs Hb Hz. destruct (bmap2 _ _ _ _ _) as [y|] eqn:E.
  2:{ exfalso. unfold bmap2 in E. rewrite Hs in E. cbn [batch_tensor shape] in E. rewrite (broadcast_out _ out bw Hb) in E. discriminate. }
  f_equal. apply bmap2_ok in E. destruct E as [E1 [E2 E3]].
  rewrite Hs in E1. change (shape (batch_tensor out zs)) with (length zs :: out) in E1.
  rewrite (broadcast_out _ out bw Hb) in E1. injection E1 as E1.
  destruct (bshape_length _ _ _ Hb) as [L _].
  apply batch_eq; [intros; rewrite map_length, seq_length; reflexivity|symmetry; exact E1|exact E2|].
  intros j e Hj He. set (p := j * prodn out + e) in *.
  assert (Hp : p < prodn (shape y)) by (rewrite <- E1, prodn_cons; nia).
  rewrite (E3 p (qz 0) Hp). rewrite nth_map_seq by assumption.
  rewrite <- E1, Hs. rewrite !pad_to_eq by (cbn [length batch_tensor shape]; lia).
  assert (M : p mod prodn out = e) by (unfold p; rewrite Nat.add_comm, Nat.mod_add by lia; apply Nat.mod_small; assumption).
  assert (D : p / prodn out = j) by (unfold p; rewrite Nat.add_comm, Nat.div_add by lia; rewrite Nat.div_small by assumption; reflexivity).
  assert (G : bidx (1 :: bw) (length zs :: out) p = bidx bw out e) by (cbn [bidx]; rewrite M; reflexivity).
  rewrite G. change (shape (batch_tensor out zs)) with (length zs :: out).
  rewrite bidx_self by (rewrite prodn_cons; nia).
  rewrite (batch_nth out zs p) by (try assumption; nia). rewrite M, D. reflexivity.
Qed.

Lemma bmap2_scalar {B} (db : B) (f : Qc -> B -> Qc) c out zs : Forall (fun z => length z = prodn out) zs ->
  bmap2 (qz 0) db f (batch_tensor out zs) (mkT [] [c]) = Ok (batch_tensor out (map (map (fun v => f v c)) zs)).
Proof.
  intros Hz.
  assert (B' : broadcast_shape (length zs :: out) [] = Some (length zs :: out)).
  { unfold broadcast_shape. cbn [length]. rewrite Nat.max_0_r. rewrite (pad_to_eq (S (length out)) (_ :: out)) by reflexivity.
    unfold pad_to. cbn [length]. rewrite Nat.sub_0_r, app_nil_r.
    change (S (length out)) with (length (length zs :: out)). apply bshape_ones. }
  destruct (bmap2 _ _ _ _ _) as [y|] eqn:E.
  2:{ exfalso. unfold bmap2 in E. cbn [batch_tensor shape] in E. rewrite B' in E. discriminate. }
  f_equal. apply bmap2_ok in E. destruct E as [E1 [E2 E3]].
  change (shape (batch_tensor out zs)) with (length zs :: out) in E1. cbn [shape] in E1.
  rewrite B' in E1. injection E1 as E1.
  transitivity (batch_tensor out (map (fun z => map (fun e => f (nth e z (qz 0)) c) (seq 0 (prodn out))) zs)).
  - apply batch_eq; [intros; rewrite map_length, seq_length; reflexivity|symmetry; exact E1|exact E2|].
    intros j e Hj He. set (p := j * prodn out + e) in *.
    assert (Hp : p < prodn (shape y)) by (rewrite <- E1, prodn_cons; nia).
    rewrite (E3 p (qz 0) Hp). rewrite nth_map_seq by assumption.
    rewrite <- E1. change (shape (batch_tensor out zs)) with (length zs :: out).
    rewrite (pad_to_eq (length (length zs :: out)) (length zs :: out)) by reflexivity.
    assert (M : p mod prodn out = e) by (unfold p; rewrite Nat.add_comm, Nat.mod_add by lia; apply Nat.mod_small; assumption).
    assert (D : p / prodn out = j) by (unfold p; rewrite Nat.add_comm, Nat.div_add by lia; rewrite Nat.div_small by assumption; reflexivity).
    rewrite bidx_self by (rewrite prodn_cons; nia).
    rewrite (batch_nth out zs p) by (try assumption; nia). rewrite M, D.
    unfold pad_to. cbn [shape data length]. rewrite Nat.sub_0_r, app_nil_r.
    change (S (length out)) with (length (length zs :: out)). rewrite bidx_ones. reflexivity.
  - f_equal. apply map_ext_in. intros z Hin. rewrite Forall_forall in Hz.
    rewrite (map_as_seq (fun v => f v c) z (prodn out) (Hz z Hin)). reflexivity.
Qed.

(** ** Kernel and bias *)
Lemma prodn_pad n s : prodn (pad_to n s) = prodn s.
Proof. unfold pad_to. rewrite prodn_app, prodn_ones. lia. Qed.

Lemma bidx_bound a : forall b s p, bshape a b = Some s -> p < prodn s -> bidx a s p < prodn a /\ bidx b s p < prodn b.
Proof.
  induction a as [|x a IH]; intros [|y b] s p E Hp; cbn [bshape] in E; try discriminate; [injection E as <-; cbn in *; lia|].
  destruct (bshape a b) as [t|] eqn:F; [|discriminate].
  assert (exists z, s = z :: t /\ (x = z \/ x = 1) /\ (y = z \/ y = 1)) as [z [-> [Hx Hy]]].
  { destruct (Nat.eqb_spec x y); [injection E as <-; exists x; auto|].
    destruct (Nat.eqb_spec x 1); [injection E as <-; exists y; auto|].
    destruct (Nat.eqb_spec y 1); [injection E as <-; exists x; auto|discriminate]. }
  clear E. rewrite prodn_cons in Hp. assert (NZ : prodn t <> 0) by nia.
  pose proof (Nat.mod_upper_bound p (prodn t) NZ) as Hm. destruct (IH b t _ F Hm) as [I1 I2].
  assert (D : p / prodn t < z) by (apply Nat.div_lt_upper_bound; lia). cbn [bidx]. rewrite !prodn_cons.
  split; [destruct (Nat.eqb_spec x 1); [subst x; nia|]|destruct (Nat.eqb_spec y 1); [subst y; nia|]]; [destruct Hx; [subst x|lia]|destruct Hy; [subst y|lia]]; nia.
Qed.

Lemma strategy_clip q : q_strategy (clip_fbw q) = q_strategy q.
Proof. unfold clip_fbw. destruct (q_clip q) as [[lo hi]|]; reflexivity. Qed.

Lemma call32_exact pw ln2 kq kernel nk w kq' : wf_tensor kernel -> wf_tensor (q_fbw kq) -> bits_clipped kq ->
  all_quantize_exactly (q_strategy kq) (data (q_fbw kq)) (data kernel) ->
  call pw ln2 kq kernel false false nk = Ok (w, kq') -> call32 kq kernel = Ok w.
Proof.
  intros Wk Wf HB A E. unfold call in E. unfold call32. rewrite (clip_id_fbw kq HB) in *.
  apply forward_elems in E. destruct E as [E1 [E2 [E3 _]]].
  unfold bmap2. rewrite E1. destruct w as [s d]. cbn [shape data] in *. do 2 f_equal.
  apply (list_nth_ext (qz 0)); [rewrite map_length, seq_length; symmetry; exact E2|].
  intros p Hp. rewrite map_length, seq_length in Hp. rewrite nth_map_seq by assumption.
  specialize (E3 p (qz 0) Hp). rewrite forward_inference in E3. injection E3 as E3. rewrite <- E3.
  assert (LS : length s = Nat.max (length (shape kernel)) (length (shape (q_fbw kq)))).
  { unfold broadcast_shape in E1. destruct (bshape_length _ _ _ E1) as [_ L]. rewrite L. unfold pad_to. rewrite app_length, repeat_length. lia. }
  unfold broadcast_shape in E1. rewrite <- LS in E1. destruct (bidx_bound _ _ _ p E1 Hp) as [I1 I2]. rewrite !prodn_pad in I1, I2.
  unfold wf_tensor in Wk, Wf.
  rewrite forward32_exact; [reflexivity|]. apply A with (f := nth (bidx (pad_to (length s) (shape (q_fbw kq))) s p) (data (q_fbw kq)) (qz 0));
    [apply nth_In; lia|apply nth_In; lia|apply nearest_even_ex].
Qed.

(** The bitwidth used for a bias entry is one of the quantizer's. *)
Lemma reduced_in loc c out q dims j : quantizer_shape q out -> chan_axis loc c out -> 0 < prodn out ->
  bias_dims loc (length (shape (q_fbw q))) = Ok dims -> j < length (data (reduce_max_q dims (q_fbw q))) ->
  In (nth j (data (reduce_max_q dims (q_fbw q))) (qz 0)) (data (q_fbw q)).
Proof.
  intros [bw [Hs [Hb [Hl _]]]] Hc NZ Hd Hj.
  assert (W : length (data (q_fbw q)) = prodn (shape (q_fbw q))) by (rewrite Hs, prodn_cons, Hl; lia).
  assert (PB : 0 < prodn bw) by (apply (bshape_pos out); assumption).
  assert (FX : forall a b, Fin a = Fin b -> a = b) by congruence.
  destruct Hc as [[-> [pre ->]]|[-> [s ->]]]; unfold bias_dims in Hd; cbn [Z.eqb Pos.eqb] in Hd; injection Hd as <-.
  - destruct (bshape_app_last _ _ _ Hb) as [pre' [c' [-> [_ _]]]]. rewrite prodn_app, prodn1 in PB.
    destruct (reduce_max_last (1 :: pre') c' (q_fbw q) Hs W) as [_ [R2 R3]]. rewrite R2 in Hj.
    destruct (R3 ltac:(rewrite prodn_cons; nia) j (qz 0) Hj) as [[_ C]|[v [[i Hi] [E _]]]]; [discriminate|]. apply FX in E. rewrite E. apply nth_error_In in Hi. exact Hi.
  - destruct bw as [|c' s']; [discriminate|]. rewrite prodn_cons in PB.
    destruct (reduce_max_first 1 c' s' (q_fbw q) Hs W) as [R1 R3].
    assert (LJ : length (data (reduce_max_q (0%Z :: map Z.of_nat (seq 2 (length (shape (q_fbw q)) - 2))) (q_fbw q))) = c').
    { transitivity (prodn (shape (reduce_max_q (0%Z :: map Z.of_nat (seq 2 (length (shape (q_fbw q)) - 2))) (q_fbw q)))); [|rewrite R1, prodn1; reflexivity].
      unfold reduce_max_q, treduce. cbn [tmap shape data]. rewrite !map_length, seq_length. reflexivity. }
    rewrite LJ in Hj.
    destruct (R3 ltac:(lia) ltac:(nia) j (qz 0) Hj) as [[_ C]|[v [[i [Hi _]] [E _]]]]; [discriminate|]. apply FX in E. rewrite E. apply nth_error_In in Hi. exact Hi.
Qed.

Lemma bias_forward32_exact q b loc c out dims : quantizer_shape q out -> chan_axis loc c out -> 0 < prodn out -> 
  bias_dims loc (length (shape (q_fbw q))) = Ok dims -> shape b = [c] -> wf_tensor b ->
  all_quantize_exactly (q_strategy q) (data (q_fbw q)) (data b) ->
  bias_forward32 q b loc = Ok (mkT [c] (bias_q q dims c b)).
Proof.
  intros Hq Hc NZ Hd Hb Wb A. destruct (fmax_facts loc c out q dims Hq Hc NZ Hd) as [c' [Hc' [Fs Fl]]].
  unfold bias_forward32. rewrite Hd. cbn [rbind]. unfold bmap2. rewrite Hb, Fs, broadcast_chan by assumption. do 2 f_equal.
  unfold bias_q. cbv zeta. rewrite prodn1. apply map_ext_in. intros j Hj. apply in_seq in Hj. destruct Hj as [_ Hj]. cbn in Hj.
  rewrite Fs, !pad_to_eq by reflexivity. rewrite (bidx_self [c]) by (rewrite prodn1; assumption).
  unfold wf_tensor in Wb. rewrite Hb, prodn1 in Wb.
  apply forward32_exact. eapply A; [apply nth_In; lia| |apply nearest_even_ex].
  apply (reduced_in loc c out); try assumption. rewrite Fl.
  pose proof (broadcast_chan c c' Hc') as BC. unfold broadcast_shape in BC. cbn [length Nat.max] in BC.
  destruct (bidx_bound _ _ _ j BC ltac:(rewrite prodn1; exact Hj)) as [_ I2]. rewrite !pad_to_eq, prodn1 in I2 by reflexivity. exact I2.
Qed.

(** The deployed bias is the exact one, rounded at most once. *)
Lemma fused_qbias32_spec pw ln2 l ts kernel kq b bl c dims : l_op l = Linear ts kernel kq (Some b) bl ->
  quantizer_shape (l_paq l) (l_out l) -> chan_axis (l_loc l) c (l_out l) -> 0 < prodn (l_out l) ->
  bias_dims (l_loc l) (length (shape (q_fbw (l_paq l)))) = Ok dims -> shape b = [c] -> wf_tensor b ->
  all_quantize_exactly (q_strategy (l_paq l)) (data (q_fbw (l_paq l))) (data b) ->
  exists qb qb32, fused_qbias pw ln2 l b = Ok qb /\ fused_qbias32 l b = Ok qb32 /\
    forall j, j < c -> nth j (data qb32) (qz 0) = nth j (data qb) (qz 0) \/ nth j (data qb32) (qz 0) = rn32 (nth j (data qb) (qz 0)).
Proof.
  intros Hop Hq Hc NZ Hd Hb Wb A.
  destruct (chan_facts _ _ _ Hc NZ) as [dims' [Hd' [KF [C0 CH]]]].
  assert (LR : length (shape (q_fbw (l_paq l))) = S (length (l_out l))).
  { destruct Hq as [bw [Hs [Hbb _]]]. rewrite Hs. destruct (bshape_length _ _ _ Hbb). cbn [length]. lia. }
  assert (dims' = dims) by (rewrite LR in Hd; congruence). subst dims'.
  destruct (fmax_facts _ c _ _ dims Hq Hc NZ Hd) as [c' [Hc' [Fs Fl]]].
  destruct (act_bw_spec l Hq) as [abw [EA [SA [LA HA]]]].
  unfold fused_qbias, fused_qbias32. rewrite (bias_forward_val pw ln2 (l_paq l) b (l_loc l) c (l_out l) _ dims Hq Hc NZ Hd Hb).
  rewrite (bias_forward32_exact (l_paq l) b (l_loc l) c (l_out l) dims Hq Hc NZ Hd Hb Wb A).
  cbn [rbind shape]. rewrite Hd. cbn [rbind].
  unfold broadcast_to. rewrite Fs, broadcast_chan by assumption. destruct (list_eq_dec Nat.eq_dec [c] [c]) as [_|N]; [|congruence].
  cbn [rbind]. rewrite EA. cbn [rbind]. rewrite SA. cbn [length].
  set (flags := axis_flags (S (length (l_out l))) dims) in *.
  set (mask := treduce Z.max 0%Z flags false abw).
  assert (MS : shape mask = [c]) by (unfold mask, treduce; cbn [shape]; rewrite SA; exact KF).
  set (fb := mkT [c] (map (fun p => nth (bidx (pad_to 1 [c']) [c] p) (data (reduce_max_q dims (q_fbw (l_paq l)))) (qz 0)) (seq 0 (prodn [c])))).
  set (bq := mkT [c] (bias_q (l_paq l) dims c b)).
  assert (LAST : forall bt bt32, shape bt = [c] -> shape bt32 = [c] ->
     (forall j, j < c -> nth j (data bt32) (qz 0) = nth j (data bt) (qz 0) \/ nth j (data bt32) (qz 0) = rn32 (nth j (data bt) (qz 0))) ->
     exists qb qb32, bmap2 0%Z (qz 0) (fun m v => if (0 <? m)%Z then v else qz 0) mask bt = Ok qb /\
       bmap2 0%Z (qz 0) (fun m v => if (0 <? m)%Z then v else qz 0) mask bt32 = Ok qb32 /\
       forall j, j < c -> nth j (data qb32) (qz 0) = nth j (data qb) (qz 0) \/ nth j (data qb32) (qz 0) = rn32 (nth j (data qb) (qz 0))).
  { intros bt bt32 S1 S2 H.
    destruct (bmap2_same 0%Z (qz 0) (fun m v => if (0 <? m)%Z then v else qz 0) mask bt) as [qb [EQ [_ [_ HQ]]]]; [congruence|].
    destruct (bmap2_same 0%Z (qz 0) (fun m v => if (0 <? m)%Z then v else qz 0) mask bt32) as [qb32 [EQ2 [_ [_ HQ2]]]]; [congruence|].
    exists qb, qb32. split; [exact EQ|]. split; [exact EQ2|]. intros j Hj. rewrite MS, prodn1 in HQ, HQ2. rewrite (HQ j (qz 0) Hj), (HQ2 j (qz 0) Hj).
    destruct (0 <? nth j (data mask) 0)%Z; [apply H, Hj|left; reflexivity]. }
  destruct (negb (q_strategy (l_paq l) =? 3)%Z && can_bias_cover_rnd l)%bool.
  - destruct (bmap2_same (qz 0) (qz 0) (fun f v => (pow2 (- qround_even f - 1) + v)%Qc) fb bq eq_refl) as [bt [EB [SB [_ HB]]]].
    destruct (bmap2_same (qz 0) (qz 0) (fun f v => rn32 (pow2 (- qround_even f - 1) + v)%Qc) fb bq eq_refl) as [bt2 [EB2 [SB2 [_ HB2]]]].
    rewrite EB, EB2. cbn [rbind]. apply LAST; [exact SB|exact SB2|]. intros j Hj. right.
    change (shape fb) with [c] in HB, HB2. rewrite prodn1 in HB, HB2. rewrite (HB j (qz 0) Hj), (HB2 j (qz 0) Hj). reflexivity.
  - cbn [rbind]. apply LAST; [reflexivity|reflexivity|]. intros j Hj. left. reflexivity.
Qed.
