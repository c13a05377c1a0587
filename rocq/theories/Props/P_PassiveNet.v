(** C74: bit operations of layers behind networks of passive layers. *)
From Coq Require Import ZArith QArith Qcanon List Bool Lia Arith.
From Verif Require Import Base.Num Base.NumFacts Base.Tensor Base.Compute Model.FixedPoint Model.Quantizer Model.Layers Model.Bops Model.TrainBops Model.Passive Model.PassiveNet
  Spec.Fixed Spec.Quant Spec.History Spec.Layer Spec.Bops Spec.PassiveNet Proofs.TensorP Proofs.QuantizerP Proofs.RecordP Proofs.BitsP Proofs.SampleP Proofs.LayersP
  Proofs.BopsP Proofs.BopsL Proofs.CallP Proofs.TrainBopsP Proofs.PassiveP Proofs.PassiveNetP.
Import ListNotations.
Local Open Scope nat_scope.

(** C74: behind any network of reshapes, flattens, dropouts, permutes, concatenations and poolings, the width that every element
    has during training is the exact one or one bit more. *)
Theorem C74_widths : forall net fuel n te, measured net -> concats_once net -> act_bw_exact_of fuel net n = Val te ->
  exists tt, act_bw_at fuel net n = Val tt /\ shape tt = shape te /\ length (data tt) = length (data te) /\
    forall e, (0 <= nth e (data te) 0 <= nth e (data tt) 0)%Z /\ (nth e (data tt) 0 <= nth e (data te) 0 + 1)%Z.
Proof.
  intros net fuel n te HM HC E. destruct (widths_near net HM HC fuel n te E) as [tt [Et [S D]]]. exists tt. split; [exact Et|]. split; [congruence|].
  split; [symmetry; apply (Forall2_len _ _ _ D)|]. intros e. apply (Forall2_nth near 0%Z 0%Z _ _ D). unfold near; lia.
Qed.
Print Assumptions C74_widths.

(** C74: so the bit operations that a dense or convolution layer reports behind such a network are at least the exact ones. *)
Theorem C74_bops : forall pw ln2 net fuel calls ts kernel kq bias bl paq relu_act loc out w m pre rest e,
  measured net -> concats_once net ->
  bits_clipped kq -> prefix_skip (q_skip kq) m -> length pre = m -> shape kernel = pre ++ rest -> reg_ok m rest (q_fbw kq) ->
  forward pw ln2 kq kernel false false (fun _ => qz 0) = Ok (w, kq) ->
  (forall v, In v (data w) -> on_grid 31 v /\ (qabs v < pow2 64)%Qc) ->
  let l := mkL (Linear ts kernel kq bias bl) paq relu_act loc out in
  counted_bops pw ln2 fuel net calls l = Val e ->
  exists t, reported_bops pw ln2 fuel net calls l = Val (Some t) /\ (0 <= e <= t)%Z.
Proof.
  intros pw ln2 net fuel calls ts kernel kq bias bl paq ra loc out w m pre rest e HM HC Hcl Hp Hm Hs HR Hw HG l.
  destruct (forward_grid _ _ _ _ _ _ _ _ _ Hw Hm Hs HR) as [_ [Sw [Lw Gw]]].
  destruct (trained_bits kq w m pre rest Hp Hm Sw Lw HR) as [kb [Ek [_ [Lk Nk]]]].
  unfold counted_bops, reported_bops, l. cbn [l_op]. unfold layer_kernel_bw, call. rewrite (clip_id_fbw _ Hcl), Hw. cbn [rbind of_result obind fst snd].
  intros E. destruct (input_bw_exact _ calls) as [te| |] eqn:Ei; [|discriminate E|discriminate E]. cbn [obind] in E. injection E as <-.
  destruct (input_exact_inv _ _ _ Ei) as [n [-> En]]. destruct (widths_near net HM HC fuel n te En) as [tt [Et [_ D]]].
  unfold input_bw. cbn [length last_layer obind]. change (1 <? 1) with false. cbn match. rewrite Et. cbn [obind]. rewrite Ek. cbn [of_result obind].
  eexists. split; [reflexivity|].
  assert (T : forall ab : nat * nat, (0 <= nth (fst ab) (data te) 0 * nth (snd ab) (kernel_bw_exact (fun a => a) (data w)) 0 <= nth (fst ab) (data tt) 0 * nth (snd ab) (data kb) 0)%Z).
  { intros ab. pose proof (Forall2_nth near 0%Z 0%Z _ _ D ltac:(unfold near; lia) (fst ab)) as [A _].
    assert (K : (0 <= nth (snd ab) (kernel_bw_exact (fun a => a) (data w)) 0 <= nth (snd ab) (data kb) 0)%Z); [|nia].
    destruct (nth_error (data w) (snd ab)) as [v|] eqn:Ev.
    - assert (B' : snd ab < prodn (shape w)) by (rewrite <- Lw; apply nth_error_Some; congruence).
      pose proof (kernel_bits_at _ _ _ HG Ev) as W. pose proof (nearest_even_ex (nth (snd ab mod prodn rest) (data (q_fbw kq)) (qz 0))) as Hr.
      assert (PR : prodn rest <> 0) by (rewrite Sw, prodn_app in B'; nia).
      pose proof (weight_le_magnitude _ _ _ _ _ W (Nk _ _ B' Hr) (in_group_mod _ _ _ _ _ PR Ev eq_refl) (Gw _ _ _ Ev Hr)).
      pose proof (weight_nonneg _ _ W). lia.
    - apply nth_error_None in Ev.
      assert (LN : length (kernel_bw_exact (fun a => a) (data w)) = length (data w)).
      { unfold kernel_bw_exact, arr_bits_masked. rewrite !map_length, get_arr_bits_elem. cbv zeta. apply map_length. }
      rewrite !nth_overflow by lia. lia. }
  unfold mac_bits. split.
  - apply zsum_map_nonneg. intros ps H1. apply zsum_map_nonneg. intros ab H2. apply T.
  - apply zsum_map_le. intros ps H1. apply zsum_map_le. intros ab H2. apply T.
Qed.
Print Assumptions C74_bops.

(** C74: every value that leaves a network of reshapes, flattens, dropouts, concatenations and max poolings is one that left a quantized
    layer or a signature, and its exact width is at least the one reported there. *)
Theorem C74_origin : forall net src fuel n x te, measured net -> shaped net src ->
  value_at fuel net src n = Ok x -> act_bw_exact_of fuel net n = Val te ->
  shape x = shape te /\ length (data x) = length (data te) /\
  forall e v, nth_error (data x) e = Some v -> exists m q f ts, is_source net m /\ act_bw_exact_of (S f) net m = Val ts /\
    q < length (data (src m)) /\ nth_error (data (src m)) q = Some v /\ (nth q (data ts) 0 <= nth e (data te) 0)%Z.
Proof.
  intros net src fuel n x te HM HS Ex E. destruct (values_origin net src HM HS fuel n x te Ex E) as [S D]. split; [exact S|]. split; [apply (Forall2_len _ _ _ D)|].
  intros e v Hv. assert (He : e < length (data x)) by (apply nth_error_Some; congruence).
  pose proof (Forall2_nth_in _ (qz 0) 0%Z _ _ D e He) as O. rewrite (nth_error_nth _ _ (qz 0) Hv) in O. exact O.
Qed.
Print Assumptions C74_origin.

(** A quantized layer with two outputs in 0..7 and 0..1 and one with outputs in -3..3 and 0; they are concatenated, folded to 2 x 2 and
    pooled over rows, and a dense layer reads the result. *)
Definition a_in : hlayer := mkL (Fn (fun x => hd [] x))
  (with_minmax (hgq_build (mkT [1; 2] [qz 0; qz 0]) (Some [0%Z]) 0 true None)
     (mkT [1; 2] [Fin (qz 0); Fin (qz 0)]) (mkT [1; 2] [Fin (qz 7); Fin (qz 1)])) true (-1) [2].
Definition b_in : hlayer := mkL (Fn (fun x => hd [] x))
  (with_minmax (hgq_build (mkT [1; 2] [qz 0; qz 0]) (Some [0%Z]) 0 true None)
     (mkT [1; 2] [Fin (qz (-4)); Fin (qz 0)]) (mkT [1; 2] [Fin (qz 3); Fin (qz 0)])) false (-1) [2].
Definition folded : pool := mkPool 2 2 1 2 1 2 1 false false.
Definition ex_net : bnet :=
  [mkBN BInput []; mkBN (BQuant a_in) [One 0]; mkBN (BQuant b_in) [One 0]; mkBN (BConcat 1) [Many [1; 2]];
   mkBN (BReshape [2; 2; 1]) [One 3]; mkBN (BPool folded [1; 2; 1]) [One 4]; mkBN (BReshape [2]) [One 5]].
Definition ex_kq : hgq := hgq_build (mkT [1; 2] [qz 2; qz 0]) (Some [0%Z]) 0 true None.
Definition ex_kernel : tensor Qc := mkT [2; 2] [Q2Qc (7 # 4); qz 3; Q2Qc (1 # 3); qz (-4)].
Definition ex_dense : hlayer :=
  mkL (Linear (matmul_taps 1 2 2) ex_kernel ex_kq None (-1)) (hgq_build (mkT [1; 2] (repeat (qz 0) 2)) (Some [0%Z]) 0 true None) false (-1) [2].
Definition ex_src (m : nat) : tensor Qc := mkT [1; 2] (match m with 1 => [qz 5; qz 1] | _ => [qz (-2); qz 0] end).
Example C74_ex : forall pw ln2,
  measured ex_net /\ concats_once ex_net /\ shaped ex_net ex_src /\
  act_bw_exact_of 9 ex_net 3 = Val (mkT [1; 4] [3; 1; 3; 0]%Z) /\ act_bw_at 9 ex_net 3 = Val (mkT [1; 4] [3; 1; 4; 0]%Z) /\
  act_bw_exact_of 9 ex_net 6 = Val (mkT [1; 2] [3; 1]%Z) /\ act_bw_at 9 ex_net 6 = Val (mkT [1; 2] [4; 1]%Z) /\
  value_at 9 ex_net ex_src 6 = Ok (mkT [1; 2] [qz 5; qz 1]) /\
  reported_bops pw ln2 9 ex_net [One 6] ex_dense = Val (Some 30%Z) /\ counted_bops pw ln2 9 ex_net [One 6] ex_dense = Val 17%Z.
Proof.
  assert (CA : calibrated (l_paq a_in)).
  { intros g Hg. exists 0%Z. destruct g as [|[|g]]; [exists (qz 0), (qz 7)|exists (qz 0), (qz 1)|cbn in Hg; lia];
      (split; [exact (nearest_even_ex (qz 0))|]; split; [lia|]; split; [reflexivity|]; split; [reflexivity|];
       split; [exists 0%Z; qvm|]; split; [eexists; symmetry; apply Qcmult_1_r|]; split; [vm_compute; discriminate|]; split; vm_compute; [discriminate|reflexivity]). }
  assert (CB : calibrated (l_paq b_in)).
  { intros g Hg. exists 0%Z. destruct g as [|[|g]]; [exists (qz (-4)), (qz 3)|exists (qz 0), (qz 0)|cbn in Hg; lia];
      (split; [exact (nearest_even_ex (qz 0))|]; split; [lia|]; split; [reflexivity|]; split; [reflexivity|];
       split; [eexists; symmetry; apply Qcmult_1_r|]; split; [eexists; symmetry; apply Qcmult_1_r|]; split; [vm_compute; discriminate|]; split; vm_compute; [discriminate|reflexivity]). }
  intros. split.
  { intros b Hb. repeat (destruct Hb as [<-|Hb]); cbn [b_kind]; try exact I; try (split; [exists [2]; repeat split|assumption]); try lia; [|destruct Hb].
    unfold pool_valid; cbn; lia. }
  split; [intros b Hb; repeat (destruct Hb as [<-|Hb]); cbn [b_kind]; try exact I; [exists [1; 2]; split; [reflexivity|cbn; lia]|destruct Hb]|].
  split; [intros m b Hb; do 7 (destruct m as [|m]; [injection Hb as <-; cbn [b_kind]; try exact I; split; reflexivity|]); destruct m; discriminate Hb|].
  do 4 (split; [vm_compute; reflexivity|]). split; [qvm|]. split; vm_compute; reflexivity.
Qed.

(** C74 fails for passive layers that are called more than once: the layers behind a shared flatten, reshape, dropout or pooling layer
    silently report no bit operations and no penalty, and their exact count raises. *)
Theorem C74_shared_refuted : forall pw ln2 net fuel n b l ts kernel kq bias bl, nth_error net n = Some b -> 2 <= length (b_calls b) ->
  match b_kind b with BReshape _ | BPool _ _ => True | _ => False end ->
  l_op l = Linear ts kernel kq bias bl ->
  (forall r, call pw ln2 kq kernel false false (fun _ => qz 0) = Ok r -> reported_bops pw ln2 (S fuel) net [One n] l = Val None) /\
  forall e, counted_bops pw ln2 (S fuel) net [One n] l <> Val e.
Proof.
  intros pw ln2 net fuel n b l ts kernel kq bias bl En Hc Hk Ho. unfold reported_bops, counted_bops. rewrite Ho.
  assert (T : act_bw_at (S fuel) net n = Asserts /\ act_bw_exact_of (S fuel) net n = Asserts).
  { cbn [act_bw_at act_bw_exact_of]. rewrite En. unfold input_bw, input_bw_exact. destruct (Nat.ltb_spec 1 (length (b_calls b))); [|lia].
    destruct (b_kind b); try contradiction; split; reflexivity. }
  destruct T as [T1 T2]. split.
  - intros r ->. cbn [of_result obind]. unfold input_bw. cbn [length last_layer obind]. change (1 <? 1) with false. cbn match. rewrite T1. reflexivity.
  - intros e. unfold input_bw_exact. cbn [length last_layer obind]. change (1 <? 1) with false. cbn match. rewrite T2.
    destruct (of_result _); discriminate.
Qed.
Print Assumptions C74_shared_refuted.

(** The same for a concatenation, except that the exact count goes through, with the widths of its first call: here the dense layer reads
    the second call, on the layer with outputs in 0..7 and 0..1, and is counted as if it read the other layer. *)
Definition shared_net : bnet :=
  [mkBN BInput []; mkBN (BQuant a_in) [One 0]; mkBN (BQuant b_in) [One 0]; mkBN (BConcat 1) [Many [2; 2]; Many [1; 1]]; mkBN (BConcat 1) [Many [1; 1]]].
Definition ones_kq : hgq := hgq_build (mkT [1; 1] [qz 0]) (Some [0%Z; 1%Z]) 0 true None.
Definition ones_dense : hlayer :=
  mkL (Linear (matmul_taps 1 4 1) (mkT [4; 1] [qz 1; qz 1; qz 1; qz 1]) ones_kq None (-1)) (hgq_build (mkT [1; 1] [qz 0]) (Some [0%Z]) 0 true None) false (-1) [1].
Theorem C74_shared_concat_refuted : forall pw ln2,
  act_bw_exact_of 9 shared_net 4 = Val (mkT [1; 4] [3; 1; 3; 1]%Z) /\ act_bw_exact_of 9 shared_net 3 = Val (mkT [1; 4] [3; 0; 3; 0]%Z) /\
  counted_bops pw ln2 9 shared_net [One 4] ones_dense = Val 8%Z /\ reported_bops pw ln2 9 shared_net [One 4] ones_dense = Val (Some 8%Z) /\
  counted_bops pw ln2 9 shared_net [One 3] ones_dense = Val 6%Z /\ reported_bops pw ln2 9 shared_net [One 3] ones_dense = Val None.
Proof. intros. repeat split; vm_compute; reflexivity. Qed.
Print Assumptions C74_shared_concat_refuted.

(** C74: a dense or convolution layer that reads the network input directly, or through passive layers only, raises when the model is called. *)
Inductive unquantized (net : bnet) : nat -> Prop :=
| UInput n b : nth_error net n = Some b -> b_kind b = BInput -> unquantized net n
| UStep n b m : nth_error net n = Some b -> match b_kind b with BReshape _ | BPool _ _ => True | _ => False end ->
    b_calls b = [One m] -> unquantized net m -> unquantized net n
| UConcat n b m ns axis : nth_error net n = Some b -> b_kind b = BConcat axis -> b_calls b = [Many (m :: ns)] -> ns <> [] ->
    unquantized net m -> unquantized net n.
Theorem C74_unquantized_input : forall pw ln2 net fuel n l ts kernel kq bias bl, unquantized net n -> l_op l = Linear ts kernel kq bias bl ->
  reported_bops pw ln2 fuel net [One n] l = Fails /\ counted_bops pw ln2 fuel net [One n] l = Fails.
Proof.
  intros pw ln2 net fuel n l ts kernel kq bias bl U Ho.
  assert (T : forall fuel, act_bw_at fuel net n = Fails /\ act_bw_exact_of fuel net n = Fails).
  { clear - U. induction U as [n b En Ek|n b m En Ek Ec U IH|n b m ns axis En Ek Ec Hn U IH]; intros [|fu]; try (split; reflexivity);
      cbn [act_bw_at act_bw_exact_of]; rewrite En; specialize (IH fu) || idtac.
    - rewrite Ek. split; reflexivity.
    - destruct IH as [I1 I2]. rewrite Ec. unfold input_bw, input_bw_exact. cbn [length last_layer obind]. change (1 <? 1) with false. cbn match. rewrite I1, I2.
      destruct (b_kind b); try contradiction; split; reflexivity.
    - destruct IH as [I1 I2]. rewrite Ek, Ec. cbn [length]. change (1 <? 1) with false. cbn match. destruct ns as [|m' ns]; [contradiction|]. cbn [length Nat.leb omap]. rewrite I1, I2. split; reflexivity. }
  destruct (T fuel) as [T1 T2]. unfold reported_bops, counted_bops. rewrite Ho. unfold input_bw, input_bw_exact. cbn [length last_layer obind]. change (1 <? 1) with false. cbn match. rewrite T1, T2.
  split; [destruct (call pw ln2 kq kernel false false (fun _ => qz 0))|destruct (layer_kernel_bw pw ln2 (fun a => a) kernel kq)]; reflexivity.
Qed.
Print Assumptions C74_unquantized_input.
Example C74_unquantized_ex : forall pw ln2, let net := [mkBN BInput []; mkBN (BReshape [2]) [One 0]] in
  unquantized net 1 /\ reported_bops pw ln2 9 net [One 1] ex_dense = Fails /\
  (* while the model is being built, before its call is recorded, nothing is reported *) reported_bops pw ln2 9 net [] ex_dense = Val None.
Proof.
  intros. split; [apply (UStep _ 1 (mkBN (BReshape [2]) [One 0]) 0); [reflexivity|exact I|reflexivity|]; apply (UInput _ 0 (mkBN BInput [])); reflexivity|].
  split; vm_compute; reflexivity.
Qed.
Example C74_shared_ex : forall pw ln2, let net := [mkBN BInput []; mkBN (BQuant a_in) [One 0]; mkBN (BReshape [2]) [One 1; One 1]; mkBN (BReshape [2]) [One 1]] in
  reported_bops pw ln2 9 net [One 2] ex_dense = Val None /\ counted_bops pw ln2 9 net [One 2] ex_dense = Asserts /\
  reported_bops pw ln2 9 net [One 3] ex_dense = Val (Some 24%Z) /\ counted_bops pw ln2 9 net [One 3] ex_dense = Val 17%Z.
Proof. intros. repeat split; vm_compute; reflexivity. Qed.
(** C74: a layer that multiplies nothing is counted with no bit operations and reports none. *)
Theorem C74_no_products : forall pw ln2 net fuel calls l,
  match l_op l with Fn _ => True | Linear ts _ _ _ _ => Forall (fun t => t = []) ts end ->
  (forall e, counted_bops pw ln2 fuel net calls l = Val e -> e = 0%Z) /\
  (forall r, reported_bops pw ln2 fuel net calls l = Val (Some r) -> r = 0%Z).
Proof.
  intros pw ln2 net fuel calls l H.
  assert (T : forall ts (a b : list Z), Forall (fun t : list (nat * nat) => t = []) ts -> zsum (mac_bits ts a b) = 0%Z).
  { intros ts a b F. unfold mac_bits. induction F as [|t ts -> F IH]; [reflexivity|exact IH]. }
  unfold counted_bops, reported_bops. destruct (l_op l) as [ts kernel kq bias bl|f].
  2: { split; intros e E; [injection E as <-; reflexivity|discriminate E]. }
  - split; intros e E.
    + destruct (of_result (layer_kernel_bw pw ln2 (fun a => a) kernel kq)) as [kb| |]; try discriminate. cbn [obind] in E.
      destruct (input_bw_exact (act_bw_exact_of fuel net) calls) as [ib| |]; try discriminate. cbn [obind] in E. injection E as <-. apply T, H.
    + destruct (of_result (call pw ln2 kq kernel false false (fun _ => qz 0))) as [kb| |]; try discriminate. cbn [obind] in E.
      destruct (input_bw (act_bw_at fuel net) calls) as [[ib|]| |]; try discriminate. cbn [obind] in E.
      destruct (of_result (trained_kernel_bw (snd kb) (fst kb))) as [kb'| |]; try discriminate. cbn [obind] in E. injection E as <-. apply T, H.
Qed.
Print Assumptions C74_no_products.
Example C74_no_products_ex : forall pw ln2, let net := [mkBN BInput []; mkBN (BQuant a_in) [One 0]] in
  counted_bops pw ln2 9 net [One 1] a_in = Val 0%Z /\ counted_bops pw ln2 9 net [One 1] ex_dense <> Val 0%Z.
Proof. intros. split; [reflexivity|vm_compute; discriminate]. Qed.
