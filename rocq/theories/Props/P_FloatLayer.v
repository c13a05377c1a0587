(** C65: layers and proxies evaluated in IEEE single precision. *)
From Coq Require Import ZArith QArith Qcanon List Bool String Lia Permutation.
From Verif Require Import Base.Num Base.NumFacts Base.Tensor Base.Compute Model.FixedPoint Model.Quantizer Model.Layers Model.Float32 Model.FloatLayer
  Spec.Fixed Spec.Quant Spec.Layer Spec.Float Spec.FloatLayer Proofs.TensorP Proofs.QuantizerP Proofs.LayersP Proofs.Float32P Proofs.Float32Q
  Proofs.FloatSumP Proofs.FloatModelP.
Import ListNotations.
Local Open Scope string_scope.
Local Open Scope Z_scope.

(** C65: whatever the order and association of the additions, fused or not, a float32 dot product whose terms
    fit the accumulator is the exact one. *)
Theorem C65_accumulation : forall ps v G, sums_to ps v -> exact_range G (map (fun xw => fst xw * snd xw)%Qc ps) ->
  v = fold_right Qcplus (qz 0) (map (fun xw => fst xw * snd xw)%Qc ps).
Proof. intros ps v G S H. exact (sums_exact ps v S G H). Qed.
Print Assumptions C65_accumulation.

(** Without room in the accumulator the order matters: 2^24 + 1 + 1 is 2^24 or 2^24 + 2. *)
Theorem C65_order_refuted : exists ps u v, sums_to ps u /\ sums_to ps v /\ u = qz (2 ^ 24) /\ v = qz (2 ^ 24 + 2) /\
  Forall (fun xw => float32 (fst xw) /\ float32 (snd xw)) ps.
Proof.
  assert (E1 : rn32 (qz (2 ^ 24) * qz 1) = qz (2 ^ 24)) by (apply Qc_is_canon; vm_compute; reflexivity).
  assert (E2 : rn32 (qz 1 * qz 1) = qz 1) by (apply Qc_is_canon; vm_compute; reflexivity).
  assert (E3 : rn32 (qz (2 ^ 24) + qz 1) = qz (2 ^ 24)) by (apply Qc_is_canon; vm_compute; reflexivity).
  assert (E4 : rn32 (qz 1 + qz 1) = qz 2) by (apply Qc_is_canon; vm_compute; reflexivity).
  assert (E5 : rn32 (qz (2 ^ 24) + qz 2) = qz (2 ^ 24 + 2)) by (apply Qc_is_canon; vm_compute; reflexivity).
  assert (A : sums_to [(qz (2 ^ 24), qz 1)] (qz (2 ^ 24))) by (rewrite <- E1 at 2; constructor).
  assert (B : sums_to [(qz 1, qz 1)] (qz 1)) by (rewrite <- E2 at 3; constructor).
  exists [(qz (2 ^ 24), qz 1); (qz 1, qz 1); (qz 1, qz 1)], (qz (2 ^ 24)), (qz (2 ^ 24 + 2)). split; [|split; [|split; [reflexivity|split; [reflexivity|]]]].
  - rewrite <- E3. apply (Sum_add ([(qz (2 ^ 24), qz 1)] ++ [(qz 1, qz 1)]) [(qz 1, qz 1)]); [|exact B].
    rewrite <- E3 at 2. apply Sum_add; assumption.
  - rewrite <- E5. apply (Sum_add [(qz (2 ^ 24), qz 1)] ([(qz 1, qz 1)] ++ [(qz 1, qz 1)])); [exact A|].
    rewrite <- E4. apply Sum_add; assumption.
  - repeat constructor; cbn [fst snd]; apply float_qz; lia.
Qed.
Print Assumptions C65_order_refuted.

(** C65: a layer evaluated in float32 returns exactly what the layer returns in exact arithmetic. *)
Theorem C65_layer : forall pw ln2 acc l w b xs record nk nb na ys l', accumulator acc -> layer_ok l ->
  bits_clipped (l_paq l) -> parameters_exact l -> quantized_weights pw ln2 l w b -> layer_exact l w b xs ->
  hforward pw ln2 l xs false record nk nb na = Ok (ys, l') -> hforward32 acc l xs = Ok ys.
Proof. exact layer32. Qed.
Print Assumptions C65_layer.

(** C65: so does its proxy, also on inputs outside the calibrated range. *)
Theorem C65_proxy : forall pw ln2 acc l S, accumulator acc -> layer_ok l -> parameters_exact l -> calibrated (l_paq l) ->
  S = "WRAP" \/ S = "SAT" ->
  exists p p32, to_proxy pw ln2 l S = Ok p /\ to_proxy32 acc l S = Ok p32 /\
    forall w b xs, deployed_weights pw ln2 l w b -> proxy_exact l p w b xs -> pcall32 p32 xs = pcall p xs.
Proof. exact proxy32. Qed.
Print Assumptions C65_proxy.

(** C65: hence layer and proxy agree in float32 on calibrated inputs, though each may add in its own order. *)
Theorem C65_layer_and_proxy : forall pw ln2 acc acc' l S w b db xs pre l1 p, accumulator acc -> accumulator acc' -> layer_ok l ->
  bits_clipped (l_paq l) -> parameters_exact l -> calibrated (l_paq l) -> S = "WRAP" \/ S = "SAT" ->
  quantized_weights pw ln2 l w b -> deployed_weights pw ln2 l w db ->
  to_proxy pw ln2 l S = Ok p -> layer_exact l w b xs -> proxy_exact l p w db xs ->
  hforward pw ln2 (no_relu l) xs false false (fun _ => qz 0) (fun _ => qz 0) (fun _ => qz 0) = Ok (pre, l1) ->
  Forall (in_range (l_paq l) (l_out l)) pre ->
  exists p32 ys, to_proxy32 acc' l S = Ok p32 /\ hforward32 acc l xs = Ok ys /\ pcall32 p32 xs = Ok ys.
Proof.
  intros pw ln2 acc acc' l S w b db xs pre l1 p HA HA' HL HB HP HC HS HW HD EP LX PX E R.
  destruct (layer_proxy pw ln2 l S HL HB HC HS) as [p' [EP' H]]. assert (p' = p) by congruence. subst p'.
  destruct (H xs) as [_ H']. specialize (H' _ _ _ _ _ _ E R).
  destruct (proxy32 pw ln2 acc' l S HA' HL HP HC HS) as [p'' [p32 [EP'' [E32 P]]]]. assert (p'' = p) by congruence. subst p''.
  exists p32, (if l_relu l then map (map relu) pre else pre). split; [exact E32|].
  split; [|rewrite (P w db xs HD PX); exact H'].
  unfold hforward in E. rewrite preact_no_relu in E. cbn [no_relu l_paq l_out l_relu] in E.
  destruct (pre_activation pw ln2 l xs false (fun _ => qz 0) (fun _ => qz 0)) as [zo|] eqn:EZ; [|discriminate]. cbn [rbind] in E.
  destruct (call pw ln2 (l_paq l) (batch_tensor (l_out l) (fst zo)) false false (fun _ => qz 0)) as [yq|] eqn:EY; [|discriminate]. cbn [rbind] in E.
  refine (layer32 pw ln2 acc l w b xs false (fun _ => qz 0) (fun _ => qz 0) (fun _ => qz 0) _
    (mkL (snd zo) (snd yq) (l_relu l) (l_loc l) (l_out l)) HA HL HB HP HW LX _).
  unfold hforward. rewrite EZ. cbn [rbind]. rewrite EY. cbn [rbind].
  injection E as <- _. destruct (l_relu l); reflexivity.
Qed.
Print Assumptions C65_layer_and_proxy.

(** ** A concrete dense layer *)
Definition fx_kq : hgq := hgq_build (mkT [1; 1]%nat [qz 3]) None 0 true None.
(** Two inputs, two outputs with 2 and 1 fractional bits; the registers are those left by a calibration on [fx_data]. *)
Definition fx_dense (relu : bool) : hlayer :=
  mkL (Linear [[(0, 0); (1, 2)]; [(0, 1); (1, 3)]]%nat
         (mkT [2; 2]%nat [Q2Qc (5 # 16); Q2Qc (-11 # 16); Q2Qc (9 # 8); qz 1]) fx_kq
         (Some (mkT [2]%nat [Q2Qc (5 # 16); Q2Qc (-3 # 16)])) (-1))
      (with_minmax (hgq_build (mkT [1; 2]%nat [qz 2; qz 1]) (Some [0]) 0 true (Some (qz (-23), qz 23)))
         (mkT [1; 2]%nat [Fin (Q2Qc (-1 # 4)); Fin (qz 0)]) (mkT [1; 2]%nat [Fin (Q2Qc (5 # 2)); Fin (qz 2)])) relu (-1) [2]%nat.
Definition fx_data : list (list (list Qc)) :=
  [[[qz 1; Q2Qc (1 # 2)]]; [[Q2Qc (-3 # 2); Q2Qc (1 # 8)]]; [[qz 0; qz 2]]].
(** Its quantized kernel, and the bias before and after the fusion of the rounding constant. *)
Definition fx_w : list Qc := [Q2Qc (3 # 8); Q2Qc (-5 # 8); Q2Qc (9 # 8); qz 1].
Definition fx_b : option (list Qc) := Some [Q2Qc (1 # 4); qz 0].
Definition fx_db : option (list Qc) := Some [Q2Qc (3 # 8); Q2Qc (1 # 4)].

Definition on_gridb (G : Z) (t : Qc) : bool := qeqb (qz (qfloor (t * pow2 (- G))) * pow2 G) t.
Lemma exact_rangeb G ts : -149 <= G <= 103 -> (forallb (on_gridb G) ts && qleb (asum ts) (pow2 (G + 23)))%bool = true -> exact_range G ts.
Proof.
  intros HG H. apply andb_true_iff in H. destruct H as [H1 H2]. split; [exact HG|]. split; [|apply qleb_true; exact H2].
  apply Forall_forall. intros t Ht. rewrite forallb_forall in H1. specialize (H1 t Ht). unfold on_gridb in H1.
  destruct (qeqb_spec (qz (qfloor (t * pow2 (- G))) * pow2 G) t) as [E|]; [|discriminate]. eexists. symmetry. exact E.
Qed.
Lemma quantizesb G r v fl : -149 <= G <= 103 -> -100 <= r <= 100 -> -149 <= G + r <= 76 ->
  (forallb (on_gridb G) [v] && qleb (asum [v]) (pow2 (G + 23)))%bool = true -> quantizes_exactly fl r v.
Proof.
  intros HG Hr HR H. pose proof (exact_rangeb G [v] HG H) as X. destruct (exact_value _ _ X) as [m [E B]].
  assert (Ev : v = (qz m * pow2 G)%Qc) by (rewrite <- E; unfold qsum; cbn [fold_right]; rewrite qz_0, Qcplus_0_r; reflexivity).
  rewrite Ev. apply value_quantizes; assumption.
Qed.

Lemma fx_ok relu : layer_ok (fx_dense relu) /\ bits_clipped (l_paq (fx_dense relu)) /\ calibrated (l_paq (fx_dense relu)) /\ parameters_exact (fx_dense relu).
Proof.
  split; [|split; [|split]].
  - split; [exists [2]%nat; repeat split|]. split; [cbn; lia|]. split; [reflexivity|]. split; [eexists; reflexivity|].
    split; [reflexivity|]. exists 2%nat. split; [lia|]. split; [reflexivity|]. left. split; [reflexivity|]. exists []. reflexivity.
  - repeat constructor; vm_compute; discriminate.
  - intros g Hg. cbn in Hg. destruct g as [|[|g]]; [exists 2, (Q2Qc (-1 # 4)), (Q2Qc (5 # 2))|exists 1, (qz 0), (qz 2)|lia].
    all: split; [match goal with |- frac_bits _ _ ?r => replace r with (qround_even (qz r)) by (vm_compute; reflexivity); apply nearest_even_ex end|]; split; [lia|]; do 2 (split; [reflexivity|]);
      (split; [first [exists (-1); qvm|exists 0; qvm]|]); (split; [first [exists 10; qvm|exists 4; qvm]|]); repeat split; vm_compute; congruence.
  - split; [reflexivity|]. split; [reflexivity|]. split; [exact I|]. split; [|split; [reflexivity|]].
    + intros v f r Hv Hf Hr. apply nearest_even_fun in Hr. cbn in Hv, Hf. destruct Hf as [<-|[]].
      replace (qround_even (qz 3)) with 3 in Hr by (vm_compute; reflexivity). subst r.
      repeat (destruct Hv as [<-|Hv]; [apply (quantizesb (-8)); [lia|lia|lia|vm_compute; reflexivity]|]). destruct Hv.
    + intros v f r Hv Hf Hr. apply nearest_even_fun in Hr. cbn in Hv, Hf.
      assert (R : -100 <= r <= 68) by (destruct Hf as [<-|[<-|[]]]; subst r; vm_compute; split; discriminate).
      repeat (destruct Hv as [<-|Hv]; [apply (quantizesb (-8)); [lia|lia|destruct Hf as [<-|[<-|[]]]; subst r; vm_compute; split; discriminate|vm_compute; reflexivity]|]). destruct Hv.
Qed.

Lemma fx_weights pw ln2 relu : quantized_weights pw ln2 (fx_dense relu) fx_w fx_b /\ deployed_weights pw ln2 (fx_dense relu) fx_w fx_db.
Proof.
  split; (split; [eexists; split; [vm_compute; reflexivity|]; apply map_this_inj; vm_compute; reflexivity|]).
  - eexists. split; [vm_compute; reflexivity|]. unfold fx_b. f_equal. apply map_this_inj. vm_compute. reflexivity.
  - destruct relu; (eexists; split; [vm_compute; reflexivity|]; unfold fx_db; f_equal; apply map_this_inj; vm_compute; reflexivity).
Qed.

(** Two ways of adding: fused from the right, or rounded products from the left. *)
Definition acc_fma (ps : list (Qc * Qc)) : Qc := fold_right (fun xw v => rn32 (fst xw * snd xw + v)%Qc) (qz 0) ps.
Definition acc_left (ps : list (Qc * Qc)) : Qc := fold_left (fun v xw => rn32 (v + rn32 (fst xw * snd xw))%Qc) ps (qz 0).
Lemma acc_fma_ok : accumulator acc_fma.
Proof. intros ps. induction ps as [|[x w] ps IH]; [constructor|]. cbn [acc_fma fold_right fst snd]. apply Sum_fma. exact IH. Qed.
Lemma acc_left_from qs v : sums_to qs v -> forall ps, sums_to (qs ++ ps) (fold_left (fun v xw => rn32 (v + rn32 (fst xw * snd xw))%Qc) ps v).
Proof.
  intros H ps. revert qs v H. induction ps as [|[x w] ps IH]; intros qs v H; [rewrite app_nil_r; exact H|].
  replace (qs ++ (x, w) :: ps)%list with ((qs ++ [(x, w)]) ++ ps)%list by (rewrite <- app_assoc; reflexivity).
  cbn [fold_left fst snd]. apply IH. apply Sum_add; [exact H|constructor].
Qed.
Lemma acc_left_ok : accumulator acc_left.
Proof. intros ps. apply (acc_left_from [] (qz 0)). constructor. Qed.

Lemma fx_layer_exact relu : layer_exact (fx_dense relu) fx_w fx_b fx_data.
Proof.
  intros x e r Hx He Hr. apply nearest_even_fun in Hr. cbn [fx_dense l_op l_paq l_out] in *. change (prodn [2]%nat) with 2%nat in He.
  assert (R : -1 < r < 10) by (destruct e as [|[|e]]; [| |lia]; subst r; vm_compute; split; reflexivity).
  split; [lia|]. exists (-6). split; [|lia]. clear Hr R.
  repeat (destruct Hx as [<-|Hx]; [destruct e as [|[|e]]; [| |lia]; apply exact_rangeb; [lia|vm_compute; reflexivity|lia|vm_compute; reflexivity]|]). destruct Hx.
Qed.

Lemma fx_proxy_exact pw ln2 relu p : to_proxy pw ln2 (fx_dense relu) "WRAP" = Ok p -> proxy_exact (fx_dense relu) p fx_w fx_db fx_data.
Proof.
  intros E x e Hx He. cbn [fx_dense l_op l_out] in He. change (prodn [2]%nat) with 2%nat in He. exists (-6). split.
  - cbn [fx_dense l_op].
    repeat (destruct Hx as [<-|Hx]; [destruct e as [|[|e]]; [| |lia]; apply exact_rangeb; [lia|vm_compute; reflexivity|lia|vm_compute; reflexivity]|]). destruct Hx.
  - destruct relu; (unfold to_proxy in E; match type of E with rbind ?k _ = _ => destruct k as [g|]; [|discriminate] end; cbn [rbind] in E);
      vm_compute in E; injection E as <-; destruct e as [|[|e]]; [| |lia| | |lia]; (repeat (constructor; [unfold format_exact; split; [vm_compute; tauto|repeat split; vm_compute; discriminate]|]); constructor).
Qed.

(** The hypotheses of the theorems hold for this layer, its proxy and these inputs; layer and proxy, adding in different
    orders, return the same values. *)
Example C65_ex : forall pw ln2 relu, exists p p32 ys, to_proxy pw ln2 (fx_dense relu) "WRAP" = Ok p /\ to_proxy32 acc_left (fx_dense relu) "WRAP" = Ok p32 /\
  hforward32 acc_fma (fx_dense relu) fx_data = Ok ys /\ pcall32 p32 fx_data = Ok ys /\
  map (map this) ys = [[5 # 4; 0]; [if relu then 0 else -1 # 4; 1]; [5 # 2; 2]]%Q.
Proof.
  intros pw ln2 relu. destruct (fx_ok relu) as [HL [HB [HC HP]]]. destruct (fx_weights pw ln2 relu) as [HW HD].
  destruct (C65_proxy pw ln2 acc_left (fx_dense relu) "WRAP" acc_left_ok HL HP HC (or_introl eq_refl)) as [p [_ [EP _]]].
  assert (EX : exists pre l1, hforward pw ln2 (no_relu (fx_dense relu)) fx_data false false (fun _ => qz 0) (fun _ => qz 0) (fun _ => qz 0) = Ok (pre, l1) /\
     map (map this) pre = [[5 # 4; 0]; [-1 # 4; 1]; [5 # 2; 2]]%Q) by (do 2 eexists; split; [vm_compute; reflexivity|vm_compute; reflexivity]).
  destruct EX as [pre [l1 [E V]]].
  assert (R : Forall (in_range (l_paq (fx_dense relu)) (l_out (fx_dense relu))) pre).
  { assert (pre = [[Q2Qc (5 # 4); qz 0]; [Q2Qc (-1 # 4); qz 1]; [Q2Qc (5 # 2); qz 2]]) as -> by (apply map_map_this_inj; rewrite V; vm_compute; reflexivity).
    repeat constructor; intros e He; cbn in He; (destruct e as [|[|e]]; [| |lia]); do 2 eexists; repeat split; vm_compute; discriminate. }
  destruct (C65_layer_and_proxy pw ln2 acc_fma acc_left (fx_dense relu) "WRAP" fx_w fx_b fx_db fx_data pre l1 p acc_fma_ok acc_left_ok HL HB HP HC (or_introl eq_refl) HW HD EP
    (fx_layer_exact relu) (fx_proxy_exact pw ln2 relu p EP) E R) as [p32 [ys [E32 [EY EP32]]]].
  exists p, p32, ys. repeat split; try assumption. destruct relu.
  - assert (X : rmap (map (map this)) (hforward32 acc_fma (fx_dense true) fx_data) = Ok [[5 # 4; 0]; [0; 1]; [5 # 2; 2]]%Q) by (vm_compute; reflexivity).
    rewrite EY in X. cbn [rmap] in X. congruence.
  - assert (X : rmap (map (map this)) (hforward32 acc_fma (fx_dense false) fx_data) = Ok [[5 # 4; 0]; [-1 # 4; 1]; [5 # 2; 2]]%Q) by (vm_compute; reflexivity).
    rewrite EY in X. cbn [rmap] in X. congruence.
Qed.

(** 3/4 * 5/8 + 2 * 1/8: seven bits of accumulator. *)
Example C65_accumulation_ex : exact_range (-5) (map (fun xw => fst xw * snd xw)%Qc [(Q2Qc (3 # 4), Q2Qc (5 # 8)); (qz 2, Q2Qc (1 # 8))]) /\
  acc_left [(Q2Qc (3 # 4), Q2Qc (5 # 8)); (qz 2, Q2Qc (1 # 8))] = Q2Qc (23 # 32).
Proof. split; [apply exact_rangeb; [lia|vm_compute; reflexivity]|qvm]. Qed.

(** ** A layer whose accumulator is too wide *)
(** One input, kernel 1, bias 2^22, no fractional bits. *)
Definition wide_layer : hlayer :=
  mkL (Linear [[(0, 0)]]%nat (mkT [1; 1]%nat [qz 1]) (hgq_build (mkT [1; 1]%nat [qz 0]) None 0 true None) (Some (mkT [1]%nat [qz (2 ^ 22)])) (-1))
      (with_minmax (hgq_build (mkT [1; 1]%nat [qz 0]) (Some [0]) 0 true None) (mkT [1; 1]%nat [Fin (qz 0)]) (mkT [1; 1]%nat [Fin (qz (2 ^ 23 - 1))])) false (-1) [1]%nat.

(** C65: with 25 bits of accumulator the layer and its proxy differ in float32 on an input inside the calibrated range,
    though they agree in exact arithmetic and every weight and format is exact: for the input 1/4 the layer returns
    2^22 and the proxy 2^22 + 1. *)
Theorem C65_wide_refuted : exists l x, layer_ok l /\ bits_clipped (l_paq l) /\ calibrated (l_paq l) /\ parameters_exact l /\
  forall pw ln2 acc acc', accumulator acc -> accumulator acc' -> exists y l' p p32,
    hforward pw ln2 l [x] false false (fun _ => qz 0) (fun _ => qz 0) (fun _ => qz 0) = Ok ([y], l') /\ in_range (l_paq l) (l_out l) y /\
    to_proxy pw ln2 l "SAT" = Ok p /\ pcall p [x] = Ok [y] /\ y = [qz (2 ^ 22)] /\
    hforward32 acc l [x] = Ok [y] /\ to_proxy32 acc' l "SAT" = Ok p32 /\ pcall32 p32 [x] = Ok [[qz (2 ^ 22 + 1)]].
Proof.
  exists wide_layer, [[Q2Qc (1 # 4)]].
  assert (HL : layer_ok wide_layer).
  { split; [exists [1]%nat; repeat split|]. split; [cbn; lia|]. split; [reflexivity|]. split; [eexists; reflexivity|].
    split; [reflexivity|]. exists 1%nat. split; [lia|]. split; [reflexivity|]. left. split; [reflexivity|]. exists []. reflexivity. }
  assert (HC : calibrated (l_paq wide_layer)).
  { intros g Hg. cbn in Hg. destruct g; [|lia]. exists 0, (qz 0), (qz (2 ^ 23 - 1)). split; [replace 0 with (qround_even (qz 0)) at 2 by (vm_compute; reflexivity); apply nearest_even_ex|].
    split; [lia|]. do 2 (split; [reflexivity|]). split; [exists 0; qvm|]. split; [exists (2 ^ 23 - 1); qvm|]. repeat split; vm_compute; congruence. }
  split; [exact HL|]. split; [exact I|]. split; [exact HC|]. split.
  { split; [reflexivity|]. split; [reflexivity|]. split; [exact I|]. split; [|split; [reflexivity|]]; intros v f r Hv Hf Hr; apply nearest_even_fun in Hr; cbn in Hv, Hf;
      destruct Hf as [<-|[]]; replace (qround_even (qz 0)) with 0 in Hr by (vm_compute; reflexivity); subst r; destruct Hv as [<-|[]];
      apply (quantizesb 0); [lia|lia|lia|vm_compute; reflexivity|lia|lia|lia|vm_compute; reflexivity]. }
  intros pw ln2 acc acc' HA HA'.
  assert (AC : forall a, accumulator a -> a [(Q2Qc (1 # 4), qz 1)] = Q2Qc (1 # 4)).
  { intros a Ha. rewrite (C65_accumulation _ _ (-2) (Ha _)); [qvm|]. apply exact_rangeb; [lia|vm_compute; reflexivity]. }
  assert (EK : call32 (hgq_build (mkT [1; 1]%nat [qz 0]) None 0 true None) (mkT [1; 1]%nat [qz 1]) = Ok (mkT [1; 1]%nat [qz 1])) by qvm.
  assert (LN : forall a, accumulator a -> linop32 a [[(0, 0)]]%nat [qz 1] [Q2Qc (1 # 4)] = [Q2Qc (1 # 4)]) by (intros a Ha; unfold linop32; cbn [map nth fst snd]; rewrite (AC a Ha); reflexivity).
  destruct (layer_proxy pw ln2 wide_layer "SAT" HL I HC (or_intror eq_refl)) as [p [EP HPL]].
  assert (EX : exists pre l1, hforward pw ln2 wide_layer [[[Q2Qc (1 # 4)]]] false false (fun _ => qz 0) (fun _ => qz 0) (fun _ => qz 0) = Ok (pre, l1) /\
     map (map this) pre = [[4194304 # 1]]%Q) by (do 2 eexists; split; [vm_compute; reflexivity|vm_compute; reflexivity]).
  destruct EX as [pre [l1 [E V]]].
  assert (pre = [[qz (2 ^ 22)]]) as -> by (apply map_map_this_inj; rewrite V; vm_compute; reflexivity).
  assert (IR : in_range (l_paq wide_layer) (l_out wide_layer) [qz (2 ^ 22)]) by
    (intros e He; cbn in He; (destruct e as [|e]; [|lia]); do 2 eexists; repeat split; vm_compute; discriminate).
  assert (EB : fused_qbias32 wide_layer (mkT [1]%nat [qz (2 ^ 22)]) = Ok (mkT [1]%nat [Q2Qc (8388609 # 2)])) by qvm.
  assert (EQ : exists q, layer_quantizer wide_layer false "SAT" = Ok q /\
     rbind (fpq_call32 q (batch_tensor [1]%nat [[qz (2 ^ 22 + 1)]])) (fun y => Ok (samples [1]%nat y)) = Ok [[qz (2 ^ 22 + 1)]]).
  { eexists. split; [vm_compute; reflexivity|]. apply (rmap_inj (map (map this)) map_map_this_inj). vm_compute. reflexivity. }
  destruct EQ as [q [EQ EC]].
  exists [qz (2 ^ 22)], l1, p. eexists. split; [exact E|]. split; [exact IR|]. split; [exact EP|].
  split; [|split; [reflexivity|split; [|split]]].
  - exact (proj2 (HPL [[[Q2Qc (1 # 4)]]]) false _ _ _ [[qz (2 ^ 22)]] l1 E (Forall_cons _ IR (Forall_nil _))).
  - unfold hforward32, pre_activation32. cbn [wide_layer l_op l_paq l_out l_loc l_relu]. rewrite EK. cbn [rbind data hd map]. rewrite (LN acc HA).
    apply (rmap_inj (map (map this)) map_map_this_inj). vm_compute. reflexivity.
  - unfold to_proxy32, keras_op32. cbn [wide_layer l_op l_relu]. rewrite EK. cbn [rbind data]. fold wide_layer. rewrite EB, EQ. reflexivity.
  - unfold pcall32. cbn [p_op p_chain p_out map hd]. rewrite (LN acc' HA').
    assert (BB : bias_add32 (l_loc wide_layer) (l_out wide_layer) (data (mkT [1]%nat [Q2Qc (8388609 # 2)])) [Q2Qc (1 # 4)] = [qz (2 ^ 22 + 1)]) by qvm.
    rewrite BB. exact EC.
Qed.
Print Assumptions C65_wide_refuted.
