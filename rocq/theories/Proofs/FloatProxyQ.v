(** A calibrated model and its proxy in single precision (C90). *)
From Coq Require Import ZArith QArith Qcanon List Bool String Lia.
From Verif Require Import Base.Num Base.NumFacts Base.Tensor Model.FixedPoint Model.Quantizer Model.Layers Model.Graph
  Model.Convert Model.Trace Model.Float32 Model.FloatLayer Model.FloatNet Spec.Fixed Spec.Quant Spec.History Spec.Layer Spec.Graph Spec.Trace
  Spec.Float Spec.FloatLayer Spec.FloatNet Proofs.TensorP Proofs.QuantizerP Proofs.FixedPointP
  Proofs.CallP Proofs.SampleP Proofs.LayersP Proofs.ConvertP Proofs.TraceP Proofs.FeedP Proofs.TraceMinmaxP Proofs.CoverP Proofs.TraceMoreP
  Proofs.CalibStepP Proofs.ProxyModelP Proofs.ProxyLayerP Proofs.ProxyConvP Proofs.ProxyTraceP Proofs.ProxyGuardP Proofs.FloatSumP Proofs.FloatLayerP Proofs.FloatModelP Proofs.FloatNetP
  Proofs.FloatProxyP.
Import ListNotations.
Local Open Scope nat_scope.

Lemma chain_one_eq {V} (sem : layer -> list V -> result V) a b vs :
  eval sem (Sub (length vs) [(Leaf a, map (fun j => (j, 0)) (seq 0 (length vs))); (Leaf b, [(length vs, 0)])] [(length vs + 1, 0)]) vs =
  rbind (sem a vs) (fun v1 => rbind (sem b [v1]) (fun v2 => Ok [v2])).
Proof.
  destruct (sem a vs) as [v1|] eqn:H1.
  - cbn [rbind]. destruct (sem b [v1]) as [v2|] eqn:H2; [apply (chain_one sem a b vs v1 v2 H1 H2)|].
    unfold eval. rewrite run_sub, Nat.eqb_refl. cbn [run_nodes]. rewrite pick_inputs. cbn [rbind run]. unfold pure at 1. rewrite H1. cbn [rbind fst snd].
    assert (P1 : pick (map (fun v => [v]) vs ++ [[v1]]) (length vs, 0) = Ok v1).
    { pose proof (pick_at vs [[v1]] 0 v1 eq_refl) as P. rewrite Nat.add_0_r in P. exact P. }
    cbn [map rseq]. rewrite P1. cbn [rbind]. unfold pure at 1. rewrite H2. reflexivity.
  - unfold eval. rewrite run_sub, Nat.eqb_refl. cbn [run_nodes]. rewrite pick_inputs. cbn [rbind run]. unfold pure at 1. rewrite H1. reflexivity.
Qed.
Lemma chain_two_eq {V} (sem : layer -> list V -> result V) a b c d vs :
  eval sem (Sub (length vs) [(Leaf a, map (fun j => (j, 0)) (seq 0 (length vs))); (Leaf b, [(length vs, 0)]); (Leaf c, [(length vs + 1, 0)]);
    (Leaf d, [(length vs + 2, 0)])] [(length vs + 3, 0)]) vs =
  rbind (sem a vs) (fun v1 => rbind (sem b [v1]) (fun v2 => rbind (sem c [v2]) (fun v3 => rbind (sem d [v3]) (fun v4 => Ok [v4])))).
Proof.
  destruct (sem a vs) as [v1|] eqn:H1.
  2:{ unfold eval. rewrite run_sub, Nat.eqb_refl. cbn [run_nodes]. rewrite pick_inputs. cbn [rbind run]. unfold pure at 1. rewrite H1. reflexivity. }
  assert (P1 : pick (map (fun v => [v]) vs ++ [[v1]]) (length vs, 0) = Ok v1).
  { pose proof (pick_at vs [[v1]] 0 v1 eq_refl) as P. rewrite Nat.add_0_r in P. exact P. }
  cbn [rbind]. destruct (sem b [v1]) as [v2|] eqn:H2.
  2:{ unfold eval. rewrite run_sub, Nat.eqb_refl. cbn [run_nodes]. rewrite pick_inputs. cbn [rbind run]. unfold pure at 1. rewrite H1. cbn [rbind fst snd].
      cbn [map rseq]. rewrite P1. cbn [rbind]. unfold pure at 1. rewrite H2. reflexivity. }
  cbn [rbind]. destruct (sem c [v2]) as [v3|] eqn:H3.
  2:{ unfold eval. rewrite run_sub, Nat.eqb_refl. cbn [run_nodes]. rewrite pick_inputs. cbn [rbind run]. unfold pure at 1. rewrite H1. cbn [rbind fst snd].
      cbn [map rseq]. rewrite P1. cbn [rbind]. unfold pure at 1. rewrite H2. cbn [rbind fst snd]. rewrite <- app_assoc.
      rewrite (pick_at vs ([[v1]] ++ [[v2]]) 1 v2 eq_refl). cbn [rbind]. unfold pure at 1. rewrite H3. reflexivity. }
  cbn [rbind]. destruct (sem d [v3]) as [v4|] eqn:H4; [apply (chain_two sem a b c d vs v1 v2 v3 v4 H1 H2 H3 H4)|].
  unfold eval. rewrite run_sub, Nat.eqb_refl. cbn [run_nodes]. rewrite pick_inputs. cbn [rbind run]. unfold pure at 1. rewrite H1. cbn [rbind fst snd].
  cbn [map rseq]. rewrite P1. cbn [rbind]. unfold pure at 1. rewrite H2. cbn [rbind fst snd]. rewrite <- app_assoc.
  rewrite (pick_at vs ([[v1]] ++ [[v2]]) 1 v2 eq_refl). cbn [rbind]. unfold pure at 1. rewrite H3. cbn [rbind fst snd]. rewrite <- app_assoc.
  rewrite (pick_at vs (([[v1]] ++ [[v2]]) ++ [[v3]]) 2 v3 eq_refl). cbn [rbind]. unfold pure at 1. rewrite H4. reflexivity.
Qed.

Section X.
Variables (pw : Qc -> Qc) (ln2 : Qc) (acc acc' : list (Qc * Qc) -> Qc) (S0 : string) (st : store).
Hypothesis HS : S0 = "WRAP"%string \/ S0 = "SAT"%string.
Hypothesis HA : accumulator acc.
Hypothesis HA' : accumulator acc'.
Hypothesis HSt : Forall obj_ok st.
Notation isem := (isem pw ln2 S0 st false).
Notation isem32 := (isem32 acc acc' S0 st).
Notation ps := (gsem pw ln2 st false).
Notation ps32 := (ps32 acc st).

Lemma gsem_false x vs : ps x vs = psem pw ln2 st x vs.
Proof. unfold gsem. destruct (snd x); try reflexivity. destruct vs as [|b [|? ?]]; reflexivity. Qed.

Lemma proxy_shape32 l p p32 : layer_ok l -> to_proxy pw ln2 l S0 = Ok p -> to_proxy32 acc' l S0 = Ok p32 ->
  p_out p32 = l_out l /\ p_chain p32 = p_chain p /\ (forall x, length (p_op p32 x) = prodn (l_out l)) /\ match l_op l with Fn g => p_op p32 = g | _ => True end.
Proof.
  intros [_ [_ HL]] E E32. unfold to_proxy, to_proxy32 in *. apply rbind_ok in E. destruct E as [g [_ E]]. apply rbind_ok in E32. destruct E32 as [g32 [Eg E32]].
  assert (G : (forall x, length (g32 x) = prodn (l_out l)) /\ match l_op l with Fn g' => g32 = g' | _ => True end).
  { unfold keras_op32 in Eg. destruct (l_op l) as [ts k kq b loc|g'].
    - split; [|exact I]. destruct HL as [HT _]. apply rbind_ok in Eg. destruct Eg as [w [_ Eg]]. destruct b as [b|].
      + apply rbind_ok in Eg. destruct Eg as [qb [_ Eg]]. injection Eg as <-. intros x. rewrite bias_add32_length, linop32_length. exact HT.
      + injection Eg as <-. intros x. rewrite linop32_length. exact HT.
    - injection Eg as <-. auto. }
  destruct G as [G1 G2]. destruct (l_relu l).
  - destruct (first_quantizer l S0) as [q1|]; [|discriminate]. destruct (layer_quantizer l true S0) as [q2|]; [|discriminate]. cbn [rbind] in *.
    injection E as <-. injection E32 as <-. cbn. auto.
  - destruct (layer_quantizer l false S0) as [q|]; [|discriminate]. cbn [rbind] in *. injection E as <-. injection E32 as <-. cbn. auto.
Qed.

(** What the graph of a proxy computes, and pcall. *)
Lemma graph_exact u o p ins xs v : obj_ok o -> act_ok o -> to_proxy pw ln2 (o_layer o) S0 = Ok p -> sized_all (o_ins o) ins = true -> zip_samples ins = Ok xs ->
  eval ps (proxy_model_of u o p) ins = Ok [v] -> pcall p xs = Ok v.
Proof.
  intros HO Hact Ep Hs Hz E.
  assert (HK : ps (fresh u 0, match o_act o with ALinear => KLin | _ => KKeras (p_op p) end) ins = Ok (map (p_op p) xs)).
  { rewrite gsem_false. apply (klay_sem pw ln2 S0 st o p u ins xs HO Hact Ep Hs Hz). }
  destruct HO as [L1 _]. destruct (proxy_shape pw ln2 S0 _ _ L1 Ep) as [Po [Pl [Pc _]]]. unfold proxy_model_of in E. rewrite <- (sized_all_length _ _ Hs) in E.
  unfold pcall. rewrite Po in *.
  assert (SZ : sized (l_out (o_layer o)) (map (p_op p) xs) = true) by (apply sized_spec, zf_lengths; exact Pl).
  destruct (p_chain p) as [q|q1 q2].
  - rewrite chain_one_eq, HK in E. cbn [rbind] in E. rewrite gsem_false in E. unfold psem, call_layer in E. cbn [snd one rbind] in E. rewrite SZ in E. cbn [negb] in E.
    destruct (fpq_call q false _) as [y|]; [|discriminate]. cbn [rbind fst] in *. injection E as <-. reflexivity.
  - destruct Pc as [_ [c ->]].
    assert (SM : exists sat, SAT_MAP S0 = Some sat) by (destruct HS as [->| ->]; eexists; reflexivity). destruct SM as [sat ES].
    pose proof (fpq_samples_scalar (fpq_init (mkT [] [c]) "TRN" S0 tt) TRN sat (init_elem c) (l_out (o_layer o)) (map (p_op p) xs) eq_refl ES eq_refl
      (zf_lengths (p_op p) _ xs Pl)) as F1. rewrite F1. cbn [rbind]. rewrite tmap_batch.
    set (y1 := map (map (fval TRN sat (init_elem c))) (map (p_op p) xs)) in *.
    assert (Ly : Forall (fun z => length z = prodn (l_out (o_layer o))) y1).
    { unfold y1. rewrite Forall_forall. intros z Hin'. rewrite map_map in Hin'. apply in_map_iff in Hin'. destruct Hin' as [x [<- _]]. rewrite map_length. apply Pl. }
    rewrite chain_two_eq, HK in E. cbn [rbind] in E. rewrite !gsem_false in E. unfold psem at 1, call_layer at 1 in E. cbn [snd one rbind] in E. rewrite SZ in E. cbn [negb] in E.
    rewrite F1 in E. cbn [rbind fst] in E. rewrite samples_concat in E by exact Ly. rewrite gsem_false in E. unfold psem at 1, call_layer at 1 in E. cbn [snd one rbind fst] in E.
    rewrite gsem_false in E. unfold psem, call_layer in E. cbn [snd one rbind] in E.
    assert (SZ2 : sized (l_out (o_layer o)) (map (map relu) y1) = true).
    { apply sized_spec. rewrite Forall_forall in *. intros z Hz'. apply in_map_iff in Hz'. destruct Hz' as [w [<- Hw]]. rewrite map_length. apply Ly, Hw. }
    rewrite SZ2 in E. cbn [negb] in E. destruct (fpq_call q2 false _) as [y|]; [|discriminate]. cbn [rbind fst] in *. injection E as <-. reflexivity.
Qed.

Lemma graph_32 u o p p32 ins xs v : obj_ok o -> act_ok o -> to_proxy pw ln2 (o_layer o) S0 = Ok p -> to_proxy32 acc' (o_layer o) S0 = Ok p32 ->
  sized_all (o_ins o) ins = true -> zip_samples ins = Ok xs ->
  pcall32 p32 xs = Ok v -> eval ps32 (proxy_model_of u o p32) ins = Ok [v].
Proof.
  intros HO Hact Ep E32 Hs Hz E. pose proof HO as [L1 _]. destruct (proxy_shape pw ln2 S0 _ _ L1 Ep) as [_ [_ [Pc _]]].
  destruct (proxy_shape32 _ p p32 L1 Ep E32) as [Po [Ec [Pl PF]]]. rewrite <- Ec in Pc.
  assert (HK : ps32 (fresh u 0, match o_act o with ALinear => KLin | _ => KKeras (p_op p32) end) ins = Ok (map (p_op p32) xs)).
  { unfold act_ok in Hact. destruct (o_act o); unfold FloatProxyP.ps32, call_layer32; cbn [snd]; try (rewrite Hz; reflexivity).
    destruct Hact as [g [Eg [Ei Hid]]]. rewrite Eg in PF. rewrite PF. rewrite Ei in Hs. pose proof (sized_all_length _ _ Hs) as Hl.
    destruct ins as [|b [|? ?]]; try discriminate. cbn [one rbind fst]. rewrite zip_one in Hz. injection Hz as <-. rewrite map_map. f_equal.
    symmetry. rewrite <- (map_id b) at 2. apply map_ext_in. intros s Hsb. apply Hid.
    unfold sized_all in Hs. cbn in Hs. rewrite andb_true_r in Hs. apply sized_spec in Hs. rewrite Forall_forall in Hs. apply Hs, Hsb. }
  unfold proxy_model_of. rewrite <- (sized_all_length _ _ Hs). unfold pcall32 in E. rewrite Po in *.
  assert (SZ : sized (l_out (o_layer o)) (map (p_op p32) xs) = true) by (apply sized_spec, zf_lengths; exact Pl).
  destruct (p_chain p32) as [q|q1 q2].
  - rewrite chain_one_eq, HK. cbn [rbind]. unfold FloatProxyP.ps32, call_layer32. cbn [snd one rbind]. rewrite SZ. cbn [negb].
    destruct (fpq_call32 q _) as [y|]; [|discriminate]. cbn [rbind fst] in *. injection E as <-. reflexivity.
  - destruct Pc as [_ [c ->]].
    assert (SM : exists sat, SAT_MAP32 S0 = Some sat) by (destruct HS as [->| ->]; eexists; reflexivity). destruct SM as [sat ES].
    assert (F1 : fpq_call32 (fpq_init (mkT [] [c]) "TRN" S0 tt) (batch_tensor (l_out (o_layer o)) (map (p_op p32) xs)) =
      Ok (batch_tensor (l_out (o_layer o)) (map (map (fun v => gfixed32 TRN32 sat (kn (init_elem c)) (bits (init_elem c)) (ints (init_elem c)) v)) (map (p_op p32) xs)))).
    { unfold fpq_call32. change (RND_MAP32 (rnd_name (fpq_init (mkT [] [c]) "TRN" S0 tt))) with (Some TRN32). change (sat_name (fpq_init (mkT [] [c]) "TRN" S0 tt)) with S0. rewrite ES.
      change (cfgs (fpq_init (mkT [] [c]) "TRN" S0 tt)) with (mkT (@nil nat) [init_elem c]).
      apply (bmap2_scalar _ (fun v c => gfixed32 TRN32 sat (kn c) (bits c) (ints c) v)). exact (zf_lengths (p_op p32) _ xs Pl). }
    rewrite F1 in E. cbn [rbind] in E. rewrite tmap_batch in E.
    match type of F1 with _ = Ok (batch_tensor _ ?z) => set (y1 := z) in * end.
    assert (Ly : Forall (fun z => length z = prodn (l_out (o_layer o))) y1).
    { unfold y1. rewrite Forall_forall. intros z Hin'. rewrite map_map in Hin'. apply in_map_iff in Hin'. destruct Hin' as [x [<- _]]. rewrite map_length. apply Pl. }
    rewrite chain_two_eq, HK. cbn [rbind]. unfold FloatProxyP.ps32 at 1, call_layer32 at 1. cbn [snd one rbind]. rewrite SZ. cbn [negb].
    rewrite F1. cbn [rbind fst]. rewrite samples_concat by exact Ly. unfold FloatProxyP.ps32 at 1, call_layer32 at 1. cbn [snd one rbind fst].
    unfold FloatProxyP.ps32, call_layer32. cbn [snd one rbind].
    assert (SZ2 : sized (l_out (o_layer o)) (map (map relu) y1) = true).
    { apply sized_spec. rewrite Forall_forall in *. intros z Hz'. apply in_map_iff in Hz'. destruct Hz' as [w [<- Hw]]. rewrite map_length. apply Ly, Hw. }
    rewrite SZ2. cbn [negb]. destruct (fpq_call32 q2 _) as [y|]; [|discriminate]. cbn [rbind fst] in *. injection E as <-. reflexivity.
Qed.


Lemma isem32_ok_none x vs v : proxy_xf32 acc' S0 st (Some x) = Ok XNone -> ps32 x vs = Ok v -> vs = [v] -> isem32 x vs = Ok v.
Proof. intros E E1 ->. unfold FloatProxyP.isem32. rewrite E1. cbn [rbind]. rewrite E. rewrite (proj2 (agrees32_spec _ _)) by reflexivity. reflexivity. Qed.
Lemma isem32_ok_layer x y vs v : proxy_xf32 acc' S0 st (Some x) = Ok (XLayer y) -> ps32 x vs = Ok v -> ps32 y vs = Ok v -> isem32 x vs = Ok v.
Proof. intros E E1 E2. unfold FloatProxyP.isem32. rewrite E1. cbn [rbind]. rewrite E. rewrite (proj2 (agrees32_spec _ _) E2). reflexivity. Qed.
Lemma isem32_ok_model x m vs v : proxy_xf32 acc' S0 st (Some x) = Ok (XModel m) -> ps32 x vs = Ok v -> eval ps32 m vs = Ok [v] -> isem32 x vs = Ok v.
Proof. intros E E1 E2. unfold FloatProxyP.isem32. rewrite E1. cbn [rbind]. rewrite E, E2. cbn [rbind one]. rewrite (proj2 (agrees32_spec _ _) eq_refl). reflexivity. Qed.

Lemma sig_32 u c out vs v : sig_ok c out -> proxy_call_exact pw ln2 st S0 (u, KSig c out) vs ->
  psem pw ln2 st (fresh u 0, KFpq (fpq_init c "TRN" S0 tt) out) vs = Ok v -> vs = [v] -> ps32 (fresh u 0, KFpq (fpq_init c "TRN" S0 tt) out) vs = Ok v.
Proof.
  intros [Hsh [HF Hl]] HP E ->. unfold psem, FloatProxyP.ps32, call_layer, call_layer32 in *. cbn [snd one rbind] in *.
  destruct (sized out v) eqn:SZ; [|discriminate]. cbn [negb] in *. apply sized_spec in SZ.
  assert (exists sat sat32, SAT_MAP S0 = Some sat /\ SAT_MAP32 S0 = Some sat32 /\ modes TRN32 TRN sat32 sat) as [sat [sat32 [ES [ES32 M]]]].
  { destruct HS as [->| ->]; eexists; eexists; (split; [reflexivity|]); (split; [reflexivity|]); constructor. }
  rewrite (fpq_samples (fpq_init c "TRN" S0 tt) TRN sat out out v eq_refl ES) in E; [|cbn; exact Hsh|apply bshape_self|exact SZ]. cbn [rbind fst] in E.
  rewrite samples_concat in E by (apply Forall_forall; intros z Hz; apply in_map_iff in Hz; destruct Hz as [s [<- _]]; apply fsample_length).
  unfold fpq_call32. change (RND_MAP32 (rnd_name (fpq_init c "TRN" S0 tt))) with (Some TRN32). change (sat_name (fpq_init c "TRN" S0 tt)) with S0. rewrite ES32.
  rewrite (bmap2_samples _ _ (cfgs (fpq_init c "TRN" S0 tt)) out out v); [|cbn; exact Hsh|apply bshape_self|exact SZ]. cbn [rbind fst].
  rewrite samples_concat by (apply Forall_forall; intros z Hz; apply in_map_iff in Hz; destruct Hz as [s [<- _]]; rewrite map_length, seq_length; reflexivity).
  rewrite <- E. f_equal. apply map_ext_in. intros s Hsv. unfold fsample. apply map_ext_in. intros e He. apply in_seq in He. destruct He as [_ He]. cbn in He.
  rewrite bidx_self by exact He.
  set (ce := nth e (data c) (mkCfg 0 0 0)).
  assert (EC : nth e (data (cfgs (fpq_init c "TRN" S0 tt))) (mkCfg 0 0 0) = init_elem ce).
  { cbn [fpq_init cfgs tmap data]. change (mkCfg 0 0 0) with (init_elem (mkCfg 0 0 0)) at 1. apply map_nth. }
  rewrite EC. assert (Hin : In ce (data c)) by (apply nth_In; rewrite Hl; exact He).
  rewrite Forall_forall in HF. destruct (HF ce Hin) as [Hk Hb]. unfold proxy_call_exact in HP. cbn [snd] in HP. rewrite Forall_forall in HP. destruct (HP ce Hin) as [Hw Hr].
  assert (IE : init_elem ce = ce) by (unfold init_elem; destruct (Z.eqb_spec (bits ce) 0); [lia|]; destruct ce; reflexivity). rewrite IE.
  (* the value is its own image, hence representable *)
  assert (EV : nth e s (qz 0) = fval TRN sat ce (nth e s (qz 0))).
  { injection E as E. assert (ES' : s = fsample TRN sat out out (data (cfgs (fpq_init c "TRN" S0 tt))) s).
    { assert (G : forall l : list sample, map (fsample TRN sat out out (data (cfgs (fpq_init c "TRN" S0 tt)))) l = l -> forall z, In z l -> z = fsample TRN sat out out (data (cfgs (fpq_init c "TRN" S0 tt))) z).
      { induction l as [|a l IH]; intros El z Hz; [destruct Hz|]. cbn [map] in El. injection El as E1 E2. destruct Hz as [<-|Hz]; [symmetry; exact E1|apply (IH E2), Hz]. }
      apply (G v E s Hsv). }
    rewrite ES' at 1. rewrite fsample_nth by exact He. rewrite bidx_self by exact He. rewrite EC, IE. reflexivity. }
  assert (RP : representable (kn ce) (bits ce) (ints ce) (nth e s (qz 0))).
  { rewrite EV. apply (gfixed_representable (nth e s (qz 0)) (kn ce) (bits ce) (ints ce) "TRN" S0); [exact Hk|lia|lia|]. unfold gfixed_quantizer. cbn [RND_MAP]. rewrite ES. reflexivity. }
  destruct RP as [m [Hm Ex]]. rewrite Ex.
  replace (ints ce - bits ce)%Z with (- (bits ce - ints ce))%Z by lia.
  apply (gfixed32_exact TRN32 TRN sat32 sat ce (- (bits ce - ints ce)) m M).
  - unfold in_format. lia.
  - unfold code in Hm. assert (2 ^ bits ce <= 2 ^ 23)%Z by (apply Z.pow_le_mono_r; lia). destruct Hm as [[_ Hm]|[_ Hm]]; [lia|].
    assert (2 ^ (bits ce - 1) <= 2 ^ 23)%Z by (apply Z.pow_le_mono_r; lia). lia.
  - lia.
Qed.

Lemma leaf_32 m x vs v : match snd x with KH i | KQuant i => forall o, nth_error st i = Some o -> calibrated (l_paq (o_layer o)) | _ => True end -> supported st m x -> layer_call_exact pw ln2 st x vs -> proxy_call_exact pw ln2 st S0 x vs ->
  isem x vs = Ok v -> isem32 x vs = Ok v.
Proof.
  intros HR HSup HX HP E. assert (Ep : psem pw ln2 st x vs = Ok v) by (rewrite <- gsem_false; apply (isem_ps pw ln2 S0 st false x vs v E)).
  assert (E32 : ps32 x vs = Ok v).
  { unfold psem in Ep. apply rbind_ok in Ep. destruct Ep as [[v' s'] [Ec Ep]]. cbn [fst] in Ep. injection Ep as ->.
    assert (HG : hgq_layer x) by (destruct x as [u k]; destruct k; exact I || exact HSup).
    destruct (alike_leaf pw ln2 acc HA st HSt x HG vs st v s' (alike_refl st HSt) Ec) as [_ [_ H]]. unfold FloatProxyP.ps32. rewrite (H HX). reflexivity. }
  destruct x as [u k]. unfold isem in E. rewrite gsem_false, Ep in E. cbn [rbind] in E.
  destruct k as [i|i|c out|g|[|]| |g|q out|]; unfold supported in HSup; cbn [snd] in HSup.
  - destruct HSup as [Hi [o [Ho Hact]]]. assert (O : obj_ok o) by (rewrite Forall_forall in HSt; apply HSt; eapply nth_error_In, Ho). pose proof O as [L1 [L2 [L3 L4]]].
    unfold psem in Ep. change (call_layer pw ln2 (u, KH i) vs st) with (call_obj pw ln2 i vs st) in Ep. unfold call_obj, get in Ep. rewrite Ho in Ep. cbn [rbind] in Ep.
    destruct (sized_all (o_ins o) vs) eqn:Es; [|discriminate]. cbn [negb] in Ep. destruct (zip_samples vs) as [xs|] eqn:Ez; [|discriminate].
    destruct (to_proxy pw ln2 (o_layer o) S0) as [p|] eqn:ET; [|unfold proxy_xf, get in E; rewrite Ho in E; cbn [rbind] in E; rewrite ET in E; discriminate].
    match type of E with context [proxy_xf _ _ _ _ ?z] => replace (proxy_xf pw ln2 S0 st z) with (Ok (XModel (proxy_model_of u o p))) in E by (symmetry; exact (px_kh pw ln2 S0 st u i o p Ho ET)) end. destruct (agrees _ v) eqn:AG; [|discriminate]. apply agrees32_spec in AG.
    apply rbind_ok in AG. destruct AG as [r [EV AG]]. apply one32_spec in AG. subst r.
    pose proof (graph_exact u o p vs xs v O Hact ET Es Ez EV) as PC.
    destruct (HP o xs p Ho Ez ET) as [PE [w [b [DW PX]]]].
    destruct (proxy32 pw ln2 acc' (o_layer o) S0 HA' L1 PE (HR o Ho) HS) as [p' [p32 [ET' [ET32 PQ]]]]. assert (p' = p) by congruence. subst p'.
    eapply isem32_ok_model; [|exact E32|].
    + unfold proxy_xf32, get. rewrite Ho. cbn [rbind]. rewrite ET32. cbn [rbind].
      assert (EM : Ok (XModel (proxy_model_of u o p32)) = Ok (XModel (proxy_model_of u o p32))) by reflexivity. unfold proxy_model_of at 1 in EM.
      destruct (p_chain p32); exact EM.
    + apply (graph_32 u o p p32 vs xs v O Hact ET ET32 Es Ez). rewrite (PQ w b xs DW PX). exact PC.
  - destruct HSup as [Hi [o [Ho [Hact [[g [Eg [Ei Hid]]] Hre]]]]]. assert (O : obj_ok o) by (rewrite Forall_forall in HSt; apply HSt; eapply nth_error_In, Ho). pose proof O as [L1 [L2 [L3 L4]]].
    unfold psem in Ep. change (call_layer pw ln2 (u, KQuant i) vs st) with (call_obj pw ln2 i vs st) in Ep. unfold call_obj, get in Ep. rewrite Ho in Ep. cbn [rbind] in Ep.
    destruct (sized_all (o_ins o) vs) eqn:Es; [|discriminate]. cbn [negb] in Ep. destruct (zip_samples vs) as [xs|] eqn:Ez; [|discriminate].
    unfold proxy_xf, get in E. rewrite Ho in E. cbn [rbind] in E. destruct (layer_quantizer (o_layer o) false S0) as [q|] eqn:EQ; [|discriminate]. cbn [rbind] in E.
    destruct (agrees _ v) eqn:AG; [|discriminate]. apply agrees32_spec in AG. rewrite gsem_false in AG.
    assert (ET : to_proxy pw ln2 (o_layer o) S0 = Ok (mkP g (One q) (l_out (o_layer o)))) by (unfold to_proxy, keras_op; rewrite Eg; cbn [rbind]; rewrite Hre, EQ; reflexivity).
    assert (ET32 : to_proxy32 acc' (o_layer o) S0 = Ok (mkP g (One q) (l_out (o_layer o)))) by (unfold to_proxy32, keras_op32; rewrite Eg; cbn [rbind]; rewrite Hre, EQ; reflexivity).
    destruct (HP o xs _ Ho Ez ET) as [PE [w [b [DW PX]]]].
    destruct (proxy32 pw ln2 acc' (o_layer o) S0 HA' L1 PE (HR o Ho) HS) as [p' [p32 [ET' [ET32' PQ]]]].
    assert (p' = mkP g (One q) (l_out (o_layer o))) by congruence. assert (p32 = mkP g (One q) (l_out (o_layer o))) by congruence. subst p' p32. specialize (PQ w b xs DW PX).
    rewrite Ei in Es. pose proof (sized_all_length _ _ Es) as Hl. destruct vs as [|bt [|? ?]]; try discriminate. rewrite zip_one in Ez. injection Ez as <-.
    unfold sized_all in Es. cbn in Es. rewrite andb_true_r in Es. change (sized (l_out (o_layer o)) bt = true) in Es.
    assert (Eb : map g (map (fun s : list Qc => [s]) bt) = bt).
    { rewrite map_map. rewrite <- (map_id bt) at 2. apply map_ext_in. intros s Hsb. apply Hid. apply sized_spec in Es. rewrite Forall_forall in Es. apply Es, Hsb. }
    unfold pcall32, pcall in PQ. cbn [p_out p_op p_chain] in PQ. rewrite Eb in PQ.
    unfold psem, call_layer in AG. cbn [snd one rbind] in AG. rewrite Es in AG. cbn [negb] in AG.
    eapply isem32_ok_layer; [|exact E32|].
    + unfold proxy_xf32, get. rewrite Ho. cbn [rbind]. rewrite EQ. reflexivity.
    + unfold FloatProxyP.ps32, call_layer32. cbn [snd one rbind]. rewrite Es. cbn [negb].
      destruct (fpq_call q false _) as [y|]; [|discriminate]. destruct (fpq_call32 q _) as [y'|]; [|discriminate]. cbn [rbind fst] in *. congruence.
  - cbn [proxy_xf] in E. destruct (agrees _ v) eqn:AG; [|discriminate]. apply agrees32_spec in AG. rewrite gsem_false in AG.
    assert (Ev : vs = [v]).
    { unfold psem, call_layer in Ep. cbn [snd] in Ep. destruct (one vs) as [b|] eqn:E1; [|discriminate]. cbn [rbind] in Ep. destruct (sized out b); [|discriminate]. cbn in Ep.
      injection Ep as ->. apply one32_spec, E1. }
    eapply isem32_ok_layer; [reflexivity|exact E32|]. apply (sig_32 u c out vs v HSup HP AG Ev).
  - eapply isem32_ok_layer; [reflexivity|exact E32|]. exact E32.
  - eapply isem32_ok_layer; [reflexivity|exact E32|]. exact E32.
  - eapply isem32_ok_none; [reflexivity|exact E32|]. unfold psem, call_layer in Ep. cbn [snd] in Ep. destruct (one vs) eqn:E1; [|discriminate]. cbn in Ep. injection Ep as ->. apply one32_spec, E1.
  - eapply isem32_ok_none; [reflexivity|exact E32|]. unfold psem, call_layer in Ep. cbn [snd] in Ep. destruct (one vs) eqn:E1; [|discriminate]. cbn in Ep. injection Ep as ->. apply one32_spec, E1.
  - eapply isem32_ok_layer; [reflexivity|exact E32|]. exact E32.
  - destruct HSup.
  - eapply isem32_ok_layer; [reflexivity|exact E32|]. exact E32.
Qed.
End X.

(** Every layer of a model is called when the model is. *)
Lemma run_called {L V St} (f : L -> list V -> St -> result (V * St)) k : forall ins s r, run f k ins s = Ok r -> leaves (fun x => exists vs s0 r0, f x vs s0 = Ok r0) k.
Proof.
  induction k as [x|nin nodes outs IH] using klayer_ind'; intros ins s r E.
  - constructor. cbn [run] in E. apply rbind_ok in E. destruct E as [r0 [E _]]. eauto.
  - rewrite run_sub in E. destruct (Nat.eqb (length ins) nin); [|discriminate]. apply rbind_ok in E. destruct E as [[W s1] [E _]].
    assert (N : forall ns vals s, (forall k i, In (k, i) ns -> In (k, i) nodes) -> run_nodes f ns vals s = Ok (W, s1) -> forall k i, In (k, i) ns ->
      leaves (fun x => exists vs s0 r0, f x vs s0 = Ok r0) k).
    { induction ns as [|[k i] ns IHn]; intros vals s0 Hin E0 k' i' Hk; [destruct Hk|]. rewrite run_nodes_cons in E0. apply rbind_ok in E0. destruct E0 as [xs [Ex E0]].
      apply rbind_ok in E0. destruct E0 as [[o s2] [Eo E0]]. cbn [fst snd] in E0. destruct Hk as [Hk|Hk].
      - injection Hk as <- <-. apply (IH k i (Hin _ _ (or_introl eq_refl)) _ _ _ Eo).
      - apply (IHn _ _ (fun a b H => Hin a b (or_intror H)) E0 k' i' Hk). }
    constructor. intros k i Hk. apply (N nodes _ s (fun _ _ H => H) E k i Hk).
Qed.

Section Y.
Variables (pw : Qc -> Qc) (ln2 : Qc) (eb : store -> nat -> result Qc) (acc acc' : list (Qc * Qc) -> Qc) (m : klayer layer) (n : nat) (ds : list (list sample)) (bsz : nat) (c : Qc)
  (st st' : store) (bops : Qc) (rs : list (list (list sample))).
Hypothesis HA : accumulator acc.
Hypothesis HA' : accumulator acc'.
Hypothesis HO : Forall obj_ok st.
Hypothesis HL : leaves (supported st m) m.
Hypothesis HD : dataset n ds.
Hypothesis Hn : 0 < n.
Hypothesis Hb : 0 < bsz.
Hypothesis Hc : (qz 1 <= c)%Qc.
Hypothesis ET : trace_minmax pw ln2 eb m ds bsz true c false st = Ok (bops, rs, st').
Hypothesis HB : forall i o', In i (top_layers m) -> nth_error st' i = Some o' -> in_bounds (l_paq (o_layer o')).

Lemma proxy_net32 S0 : S0 = "WRAP"%string \/ S0 = "SAT"%string -> single m -> (forall x, m <> Leaf x) -> forall fuel names B,
  depth m + 2 <= fuel -> batch_of n ds B -> promises_kept pw ln2 m B st' ->
  every_call pw ln2 st' (fun x ins => layer_call_exact pw ln2 st' x ins /\ proxy_call_exact pw ln2 st' S0 x ins) m B ->
  exists pm ns s ys, convert_model (fun x => fst x) (proxy_xf32 acc' S0 st') fuel m names = Ok (pm, ns, s) /\ leaves proxy_layer pm /\
    call_model pw ln2 m B st' = Ok (ys, st') /\ call_model32 acc m B st' = Ok (ys, st') /\ forall any, call_model32 acc pm B any = Ok (ys, any).
Proof.
  intros HS Hs HN fuel names B Hf HBt HPk HE.
  destruct (proxy_eval pw ln2 eb m n ds bsz c st st' bops rs HO HL HD Hn Hb Hc ET HB false S0 (fun H => ltac:(discriminate H)) HS B HBt HPk) as [ys [EI [_ EC]]].
  assert (HL' : leaves hgq_layer m) by (eapply leaves_impl; [|exact HL]; intros [u k] H; destruct k; exact I || exact H).
  pose proof (trace_ok pw ln2 eb m n ds bsz true c false st bops rs st' HO HL' HD Hb ET) as O'.
  destruct (calibration pw ln2 eb m n ds bsz c st st' bops rs HO HL HD Hn Hb Hc ET HB) as [st1 [st2 [O1 [HR [RV HT]]]]].
  assert (SUP : leaves (fun x => supported st' m x /\ match snd x with KH i | KQuant i => forall o, nth_error st' i = Some o -> calibrated (l_paq (o_layer o)) | _ => True end) m).
  { eapply leaves_impl; [|exact HL]. intros [u k] Hx. unfold supported in *. cbn [snd] in *. destruct k; try (split; [exact Hx|exact I]).
    - destruct Hx as [Hi [o [E0 Ha]]]. destruct (HT _ Hi) as [o_ [o1 [o' [E0_ [E1 [E' [T1 [T' [Hr1 [Hr' [Hfr HC]]]]]]]]]]]. assert (o_ = o) by congruence. subst o_.
      pose proof (twin_act _ _ T1 Ha) as A1. split; [|intros o2 E2; assert (o2 = o') by congruence; subst o2; apply (HC A1)].
      split; [exact Hi|]. exists o'. split; [exact E'|apply (twin_act _ _ T' A1)].
    - destruct Hx as [Hi [o [E0 [Ha [Hid Hre]]]]]. destruct (HT _ Hi) as [o_ [o1 [o' [E0_ [E1 [E' [T1 [T' [Hr1 [Hr' [Hfr HC]]]]]]]]]]]. assert (o_ = o) by congruence. subst o_.
      pose proof (twin_act _ _ T1 Ha) as A1. split; [|intros o2 E2; assert (o2 = o') by congruence; subst o2; apply (HC A1)].
      split; [exact Hi|]. exists o'. split; [exact E'|]. split; [apply (twin_act _ _ T' A1)|]. split; [apply (twin_id _ _ T' (twin_id _ _ T1 Hid))|].
      destruct T' as [[a [b X]] _]. destruct T1 as [[a' [b' X']] _]. rewrite X. cbn. rewrite X'. exact Hre. }
  assert (G : leaves (noted_leaf (pure (isem pw ln2 S0 st' false)) (pure (isem32 acc acc' S0 st')) (psem pw ln2 st') (fun _ => True)
    (fun x ins => layer_call_exact pw ln2 st' x ins /\ proxy_call_exact pw ln2 st' S0 x ins)) m).
  { eapply leaves_impl; [|exact SUP]. intros x [Hx Hcal] vs [] v [] _ E. unfold pure in E. apply rbind_ok in E. destruct E as [w [E Ew]]. injection Ew as ->.
    split; [exact I|]. split; [rewrite <- gsem_false; apply (isem_ps pw ln2 S0 st' false x vs v E)|]. intros [X1 X2].
    unfold pure. rewrite (leaf_32 pw ln2 acc acc' S0 st' HS HA HA' O' m x vs v Hcal Hx X1 X2 E). reflexivity. }
  unfold eval in EI. apply rbind_ok in EI. destruct EI as [[ys' []] [EI Ey]]. injection Ey as ->. 
  destruct (run_noted _ _ _ _ _ m G B tt ys tt [] I EI) as [_ [new [N C]]]. cbn [app] in N.
  assert (F : Forall (fun c0 => layer_call_exact pw ln2 st' (fst c0) (snd c0) /\ proxy_call_exact pw ln2 st' S0 (fst c0) (snd c0)) new).
  { apply (HE ys new). rewrite (noting_note pw ln2 st'). exact N. }
  pose proof (C F) as E32. 
  assert (EV : eval (isem32 acc acc' S0 st') m B = Ok ys) by (unfold eval; rewrite E32; reflexivity).
  assert (LX : leaves (fun x => exists lx, proxy_xf32 acc' S0 st' (Some x) = Ok lx) m).
  { eapply leaves_impl; [|apply (run_called _ _ _ _ _ E32)]. intros x [vs [s0 [r0 Er]]]. unfold pure in Er. apply rbind_ok in Er. destruct Er as [v [Er _]].
    unfold isem32 in Er. apply rbind_ok in Er. destruct Er as [w [_ Er]]. destruct (proxy_xf32 acc' S0 st' (Some x)) as [lx|]; [eauto|discriminate]. }
  destruct (conversion32 acc acc' S0 st' HS fuel m names B ys Hs HN LX Hf EV) as [pm [ns [s [EC' [PL CP]]]]].
  exists pm, ns, s, ys. split; [exact EC'|]. split; [exact PL|]. split; [exact EC|]. split; [|exact CP].
  destruct (net_exact pw ln2 acc HA st' O' m B st' ys st' HL' (alike_refl st' O') EC) as [_ NE]. apply NE.
  intros ys0 log El. eapply Forall_impl; [|exact (HE ys0 log El)]. intros a [X _]. exact X.
Qed.
End Y.
