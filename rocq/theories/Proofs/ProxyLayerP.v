(** Layers of a traced model and what the transformer makes of them (C32). *)
From Coq Require Import ZArith Qcanon List Bool String Lia.
From Verif Require Import Base.Num Base.NumFacts Base.Tensor Model.FixedPoint Model.Quantizer Model.Layers Model.Graph
  Model.Convert Model.Trace Spec.Fixed Spec.Quant Spec.History Spec.Layer Spec.Graph Spec.Trace Spec.Steady Proofs.TensorP Proofs.QuantizerP Proofs.RecordP
  Proofs.BitsP Proofs.HistoryP Proofs.CallP Proofs.FixedPointP Proofs.FixedPointLayerP Proofs.SampleP Proofs.LayersP Proofs.ConvertP
  Proofs.TraceP Proofs.FeedP Proofs.TraceMinmaxP Proofs.CoverP Proofs.TraceMoreP Proofs.ProxyModelP Proofs.FormatP.
Import ListNotations.
Local Open Scope nat_scope.

Lemma fits_representable c x : (kn c = 0 \/ kn c = 1)%Z -> fits_b c x = true -> representable (kn c) (bits c) (ints c) x.
Proof.
  intros Hk H. unfold fits_b in H. cbv zeta in H. apply andb_prop in H. destruct H as [H1 H2].
  destruct (qeqb_spec (x * pow2 (bits c - ints c))%Qc (qz (qfloor (x * pow2 (bits c - ints c))))) as [H1'|]; [|discriminate]. clear H1. rename H1' into H1. exists (qfloor (x * pow2 (bits c - ints c))%Qc). split.
  - unfold code. destruct Hk as [E|E]; rewrite E in *; cbn in H2; apply andb_prop in H2; destruct H2 as [A B];
      apply Z.leb_le in A; apply Z.ltb_lt in B; [left|right]; lia.
  - rewrite <- H1. rewrite <- Qcmult_assoc, <- pow2_add. replace (bits c - ints c + (ints c - bits c))%Z with 0%Z by lia.
    rewrite pow2_0. change (qz 1) with 1%Qc. ring.
Qed.

Lemma sized_spec out b : sized out b = true <-> Forall (fun x => length x = prodn out) b.
Proof.
  unfold sized. rewrite forallb_forall, Forall_forall. split; intros H x Hx; specialize (H x Hx); [apply Nat.eqb_eq|apply Nat.eqb_eq]; assumption.
Qed.

Lemma zip_one b : zip_samples [b] = Ok (map (fun s => [s]) b).
Proof.
  unfold zip_samples. cbn [forallb]. rewrite Nat.eqb_refl. cbn [andb]. f_equal.
  apply (nth_ext _ _ [[]] [[]]); [rewrite !map_length, seq_length; reflexivity|]. intros j Hj. rewrite map_length, seq_length in Hj.
  rewrite nth_map_seq by assumption. change [[]] with ((fun s : list Qc => [s]) []). rewrite map_nth. reflexivity.
Qed.

Section X.
Variables (pw : Qc -> Qc) (ln2 : Qc) (S0 : string) (st : store).
Hypothesis HS : S0 = "WRAP"%string \/ S0 = "SAT"%string.
Notation PX := (proxy_xf pw ln2 S0 st).
Definition psem (x : layer) (vs : list (list sample)) : result (list sample) := rbind (call_layer pw ln2 x vs st) (fun r => Ok (fst r)).

Definition ready (o : hobj) : Prop := obj_ok o /\ o_record o = false /\ calibrated (l_paq (o_layer o)).

Lemma obj_call i ins o : nth_error st i = Some o -> obj_ok o -> o_record o = false ->
  call_obj pw ln2 i ins st = if sized_all (o_ins o) ins then rbind (zip_samples ins) (fun xs => Ok (map (yout pw ln2 (o_layer o)) xs, st)) else Raise.
Proof.
  intros Ho [L1 [L2 [L3 L4]]] Hr. unfold call_obj, get. rewrite Ho. cbn [rbind]. destruct (sized_all _ _); [|reflexivity]. cbn [negb].
  destruct (zip_samples ins) as [xs|]; [|reflexivity]. cbn [rbind]. rewrite Hr.
  destruct (hfwd pw ln2 (o_layer o) xs false L1 L2 L3 L4) as [mn [mx [Eh [_ Hn]]]]. rewrite Eh. cbn [rbind fst snd].
  destruct (Hn eq_refl) as [-> ->]. do 2 f_equal. apply set_nth_same. rewrite Ho. f_equal. symmetry. apply obj_mm_id.
Qed.

Lemma obj_proxy o xs : ready o -> Forall (fun x => in_range (l_paq (o_layer o)) (l_out (o_layer o)) (ysamp pw ln2 (o_layer o) x)) xs ->
  exists p, to_proxy pw ln2 (o_layer o) S0 = Ok p /\ pcall p xs = Ok (map (yout pw ln2 (o_layer o)) xs).
Proof.
  intros [[L1 [L2 [L3 L4]]] [Hr HC]] HR. destruct (layer_proxy pw ln2 (o_layer o) S0 L1 L3 HC HS) as [p [Ep H]]. exists p. split; [exact Ep|].
  destruct (H xs) as [_ H']. clear H.
  assert (L1' : layer_ok (no_relu (o_layer o))) by exact L1.
  destruct (hfwd pw ln2 (no_relu (o_layer o)) xs false L1' L2 L3 L4) as [mn [mx [Eh _]]].
  rewrite (H' _ _ _ _ _ _ Eh).
  - f_equal. change (yout pw ln2 (no_relu (o_layer o))) with (ysamp pw ln2 (no_relu (o_layer o))).
    assert (Y : forall x, ysamp pw ln2 (no_relu (o_layer o)) x = ysamp pw ln2 (o_layer o) x).
    { intros x. unfold ysamp, zfun. rewrite preact_no_relu. reflexivity. }
    unfold yout. destruct (l_relu (o_layer o)); [rewrite map_map|]; apply map_ext; intros x; rewrite Y; reflexivity.
  - rewrite Forall_forall in *. intros y Hy. apply in_map_iff in Hy. destruct Hy as [x [<- Hx]]. specialize (HR x Hx).
    unfold yout, ysamp, zfun in *. rewrite preact_no_relu. exact HR.
Qed.

Lemma proxy_shape l p : layer_ok l -> to_proxy pw ln2 l S0 = Ok p ->
  p_out p = l_out l /\ (forall x, length (p_op p x) = prodn (l_out l)) /\
  match p_chain p with
  | One q => layer_quantizer l false S0 = Ok q /\ l_relu l = false
  | Two q1 q2 => l_relu l = true /\ exists c, q1 = fpq_init (mkT [] [c]) "TRN" S0 tt
  end /\ match l_op l with Fn g => p_op p = g | _ => True end.
Proof.
  intros [_ [_ HL]] E. unfold to_proxy in E. apply rbind_ok in E. destruct E as [g [Eg E]].
  assert (G : (forall x, length (g x) = prodn (l_out l)) /\ match l_op l with Fn g' => g = g' | _ => True end).
  { unfold keras_op in Eg. destruct (l_op l) as [ts k kq b loc|g'].
    - split; [|exact I]. destruct HL as [HT _]. apply rbind_ok in Eg. destruct Eg as [w [_ Eg]]. destruct b as [b|].
      + apply rbind_ok in Eg. destruct Eg as [qb [_ Eg]]. injection Eg as <-. intros x. rewrite bias_add_length, linop_length. exact HT.
      + injection Eg as <-. intros x. rewrite linop_length. exact HT.
    - injection Eg as <-. auto. }
  destruct (l_relu l) eqn:Er.
  - apply rbind_ok in E. destruct E as [q1 [E1 E]]. apply rbind_ok in E. destruct E as [q2 [E2 E]]. injection E as <-. cbn [p_out p_op p_chain].
    split; [reflexivity|]. split; [apply G|]. split; [|apply G]. split; [reflexivity|]. unfold first_quantizer in E1.
    apply rbind_ok in E1. destruct E1 as [bits [_ E1]]. injection E1 as <-. eexists. reflexivity.
  - apply rbind_ok in E. destruct E as [q [E1 E]]. injection E as <-. cbn [p_out p_op p_chain]. split; [reflexivity|]. split; [apply G|]. split; [auto|apply G].
Qed.

Definition proxy_model_of (u : nat) (o : hobj) (p : player) : klayer layer :=
  let n := List.length (o_ins o) in
  let klay := (fresh u 0, match o_act o with ALinear => KLin | _ => KKeras (p_op p) end) in
  let first := (Leaf klay, map (fun j => (j, 0)) (seq 0 n)) in
  match p_chain p with
  | One q => Sub n [first; (Leaf (fresh u 1, KFpq q (p_out p)), [(n, 0)])] [(n + 1, 0)]
  | Two q1 q2 => Sub n [first; (Leaf (fresh u 1, KFpq q1 (p_out p)), [(n, 0)]);
                        (Leaf (fresh u 2, KRelu), [(n + 1, 0)]);
                        (Leaf (fresh u 3, KFpq q2 (p_out p)), [(n + 2, 0)])] [(n + 3, 0)]
  end.
Lemma px_kh u i o p : nth_error st i = Some o -> to_proxy pw ln2 (o_layer o) S0 = Ok p -> PX (Some (u, KH i)) = Ok (XModel (proxy_model_of u o p)).
Proof.
  intros Ho Ep. unfold proxy_xf, get. rewrite Ho. cbn [rbind]. rewrite Ep. cbn [rbind]. unfold proxy_model_of. destruct (p_chain p); reflexivity.
Qed.

Lemma pick_inputs {V} (vs : list V) : rseq (map (pick (map (fun v => [v]) vs)) (map (fun j => (j, 0)) (seq 0 (length vs)))) = Ok vs.
Proof.
  rewrite map_map. assert (G : forall pre, rseq (map (fun j => pick (map (fun v => [v]) (pre ++ vs)) (j, 0)) (seq (length pre) (length vs))) = Ok vs).
  { induction vs as [|v vs IH]; intros pre; [reflexivity|]. cbn [length seq map rseq].
    unfold pick at 1. cbn [fst snd]. rewrite nth_error_map, nth_error_app2, Nat.sub_diag by lia. cbn [nth_error option_map rbind].
    specialize (IH (pre ++ [v])). rewrite app_length in IH. cbn [length] in IH. rewrite Nat.add_1_r, <- app_assoc in IH. cbn [app] in IH. rewrite IH. reflexivity. }
  exact (G []).
Qed.
Lemma pick_at {V} (vs : list V) more k v : nth_error more k = Some [v] -> pick (map (fun v => [v]) vs ++ more) (length vs + k, 0) = Ok v.
Proof.
  intros H. unfold pick. cbn [fst snd]. rewrite nth_error_app2; rewrite map_length; [|lia]. replace (length vs + k - length vs) with k by lia. rewrite H. reflexivity.
Qed.

Lemma chain_one {V} (sem : layer -> list V -> result V) a b vs v1 v2 : sem a vs = Ok v1 -> sem b [v1] = Ok v2 ->
  eval sem (Sub (length vs) [(Leaf a, map (fun j => (j, 0)) (seq 0 (length vs))); (Leaf b, [(length vs, 0)])] [(length vs + 1, 0)]) vs = Ok [v2].
Proof.
  intros H1 H2. unfold eval. rewrite run_sub, Nat.eqb_refl. cbn [run_nodes]. rewrite pick_inputs. cbn [rbind run]. unfold pure at 1. rewrite H1. cbn [rbind fst snd].
  assert (P1 : pick (map (fun v => [v]) vs ++ [[v1]]) (length vs, 0) = Ok v1).
  { pose proof (pick_at vs [[v1]] 0 v1 eq_refl) as P. rewrite Nat.add_0_r in P. exact P. }
  cbn [map rseq]. rewrite P1. cbn [rbind]. unfold pure at 1. rewrite H2. cbn [rbind fst snd].
  rewrite <- app_assoc. rewrite (pick_at vs ([[v1]] ++ [[v2]]) 1 v2 eq_refl). reflexivity.
Qed.
Lemma chain_two {V} (sem : layer -> list V -> result V) a b c d vs v1 v2 v3 v4 : sem a vs = Ok v1 -> sem b [v1] = Ok v2 -> sem c [v2] = Ok v3 -> sem d [v3] = Ok v4 ->
  eval sem (Sub (length vs) [(Leaf a, map (fun j => (j, 0)) (seq 0 (length vs))); (Leaf b, [(length vs, 0)]); (Leaf c, [(length vs + 1, 0)]);
    (Leaf d, [(length vs + 2, 0)])] [(length vs + 3, 0)]) vs = Ok [v4].
Proof.
  intros H1 H2 H3 H4. unfold eval. rewrite run_sub, Nat.eqb_refl. cbn [run_nodes]. rewrite pick_inputs. cbn [rbind run]. unfold pure at 1. rewrite H1. cbn [rbind fst snd].
  assert (P1 : pick (map (fun v => [v]) vs ++ [[v1]]) (length vs, 0) = Ok v1).
  { pose proof (pick_at vs [[v1]] 0 v1 eq_refl) as P. rewrite Nat.add_0_r in P. exact P. }
  cbn [map rseq]. rewrite P1. cbn [rbind]. unfold pure at 1. rewrite H2. cbn [rbind fst snd]. rewrite <- app_assoc.
  rewrite (pick_at vs ([[v1]] ++ [[v2]]) 1 v2 eq_refl). cbn [rbind]. unfold pure at 1. rewrite H3. cbn [rbind fst snd]. rewrite <- app_assoc.
  rewrite (pick_at vs (([[v1]] ++ [[v2]]) ++ [[v3]]) 2 v3 eq_refl). cbn [rbind]. unfold pure at 1. rewrite H4. cbn [rbind fst snd]. rewrite <- app_assoc.
  rewrite (pick_at vs ((([[v1]] ++ [[v2]]) ++ [[v3]]) ++ [[v4]]) 3 v4 eq_refl). reflexivity.
Qed.

Lemma sized_all_length shapes ins : sized_all shapes ins = true -> length ins = length shapes.
Proof. unfold sized_all. intros H. apply andb_prop in H. destruct H as [H _]. apply Nat.eqb_eq, H. Qed.

(** The keras layer (or the identity) of an object computes p_op on every sample. *)
Lemma klay_sem o p u ins xs : obj_ok o -> act_ok o -> to_proxy pw ln2 (o_layer o) S0 = Ok p -> sized_all (o_ins o) ins = true -> zip_samples ins = Ok xs ->
  psem (fresh u 0, match o_act o with ALinear => KLin | _ => KKeras (p_op p) end) ins = Ok (map (p_op p) xs).
Proof.
  intros HO HA Ep Hs Hz. destruct HO as [L1 _]. destruct (proxy_shape _ _ L1 Ep) as [_ [_ [_ HF]]].
  unfold act_ok in HA. destruct (o_act o); unfold psem, call_layer; cbn [snd]; try (rewrite Hz; reflexivity).
  destruct HA as [g [Eg [Ei Hid]]]. rewrite Eg in HF. rewrite HF. rewrite Ei in Hs. pose proof (sized_all_length _ _ Hs) as Hl.
  destruct ins as [|b [|? ?]]; try discriminate. cbn [one rbind fst]. rewrite zip_one in Hz. injection Hz as <-. rewrite map_map. f_equal.
  symmetry. rewrite <- (map_id b) at 2. apply map_ext_in. intros s Hsb. apply Hid.
  unfold sized_all in Hs. cbn in Hs. rewrite andb_true_r in Hs. apply sized_spec in Hs. rewrite Forall_forall in Hs. apply Hs, Hsb.
Qed.

(** The same, where quantizers accept values of their formats only (if [strict]). *)
Variable strict : bool.
Definition gsem (x : layer) (vs : list (list sample)) : result (list sample) :=
  match snd x, vs with
  | KFpq q out, [b] => if (negb strict || fpq_guard q out b)%bool then psem x vs else Raise
  | _, _ => psem x vs
  end.
Lemma gsem_psem x vs v : gsem x vs = Ok v -> psem x vs = Ok v.
Proof. unfold gsem. destruct (snd x); try (intros H; exact H). destruct vs as [|b [|? ?]]; try (intros H; exact H). destruct (_ || _)%bool; [auto|discriminate]. Qed.
Lemma gsem_fpq u q out b : (strict = true -> fpq_guard q out b = true) -> gsem (u, KFpq q out) [b] = psem (u, KFpq q out) [b].
Proof. intros H. unfold gsem. cbn [snd]. destruct strict; [rewrite H by reflexivity|]; reflexivity. Qed.
Lemma gsem_guard u q out b v : strict = true -> gsem (u, KFpq q out) [b] = Ok v -> fpq_guard q out b = true.
Proof. intros H. unfold gsem. cbn [snd]. rewrite H. cbn [negb orb]. destruct (fpq_guard q out b); [reflexivity|discriminate]. Qed.

Lemma kh_proxy u i o ins xs : nth_error st i = Some o -> ready o -> (strict = true -> steady o) -> act_ok o -> sized_all (o_ins o) ins = true -> zip_samples ins = Ok xs ->
  Forall (fun x => in_range (l_paq (o_layer o)) (l_out (o_layer o)) (ysamp pw ln2 (o_layer o) x)) xs ->
  exists p, PX (Some (u, KH i)) = Ok (XModel (proxy_model_of u o p)) /\ eval gsem (proxy_model_of u o p) ins = Ok [map (yout pw ln2 (o_layer o)) xs].
Proof.
  intros Ho HR HT HA Hs Hz Hin. destruct (obj_proxy o xs HR Hin) as [p [Ep Ec]]. exists p. split; [apply px_kh; assumption|].
  destruct HR as [HO [Hrec HC]]. pose proof (fun H => layer_fmt pw ln2 o S0 xs p HS HO HC (HT H) Hin Ep) as HG.
  assert (HK : gsem (fresh u 0, match o_act o with ALinear => KLin | _ => KKeras (p_op p) end) ins = Ok (map (p_op p) xs)).
  { rewrite <- (klay_sem o p u ins xs HO HA Ep Hs Hz). unfold gsem. cbn [snd]. destruct (o_act o); reflexivity. }
  destruct HO as [L1 _]. destruct (proxy_shape _ _ L1 Ep) as [Po [Pl [Pc _]]]. unfold proxy_model_of. rewrite <- (sized_all_length _ _ Hs).
  unfold pcall in Ec. rewrite Po in *.
  assert (SZ : sized (l_out (o_layer o)) (map (p_op p) xs) = true) by (apply sized_spec, zf_lengths; exact Pl).
  destruct (p_chain p) as [q|q1 q2].
  - apply (chain_one gsem _ _ _ _ _ HK). rewrite gsem_fpq by exact HG. unfold psem, call_layer. cbn [snd one rbind]. rewrite SZ. cbn [negb].
    destruct (fpq_call q false _) as [y|]; [|discriminate]. cbn [rbind fst] in *. exact Ec.
  - destruct Pc as [_ [c ->]].
    assert (SM : exists sat, SAT_MAP S0 = Some sat) by (destruct HS as [->| ->]; eexists; reflexivity). destruct SM as [sat ES].
    pose proof (fpq_samples_scalar (fpq_init (mkT [] [c]) "TRN" S0 tt) TRN sat (init_elem c) (l_out (o_layer o)) (map (p_op p) xs) eq_refl ES eq_refl
      (zf_lengths (p_op p) _ xs Pl)) as F1. rewrite F1 in Ec. cbn [rbind] in Ec. rewrite tmap_batch in Ec.
    set (y1 := map (map (fval TRN sat (init_elem c))) (map (p_op p) xs)) in *.
    assert (Ly : Forall (fun z => length z = prodn (l_out (o_layer o))) y1).
    { unfold y1. rewrite Forall_forall. intros z Hin'. rewrite map_map in Hin'. apply in_map_iff in Hin'. destruct Hin' as [x [<- _]]. rewrite map_length. apply Pl. }
    apply (chain_two gsem _ _ _ _ _ _ y1 (map (map relu) y1) _ HK).
    + rewrite gsem_fpq by (intros H; apply (HG H)). unfold psem, call_layer. cbn [snd one rbind]. rewrite SZ. cbn [negb]. rewrite F1. cbn [rbind fst]. rewrite samples_concat by exact Ly. reflexivity.
    + reflexivity.
    + rewrite gsem_fpq by (intros H; apply (HG H); [exact ES|reflexivity]). unfold psem, call_layer. cbn [snd one rbind].
      assert (SZ2 : sized (l_out (o_layer o)) (map (map relu) y1) = true).
      { apply sized_spec. rewrite Forall_forall in *. intros z Hz'. apply in_map_iff in Hz'. destruct Hz' as [w [<- Hw]]. rewrite map_length. apply Ly, Hw. }
      rewrite SZ2. cbn [negb]. destruct (fpq_call q2 false _) as [y|]; [|discriminate]. cbn [rbind fst] in *. exact Ec.
Qed.

Lemma kquant_proxy u i o ins xs : nth_error st i = Some o -> ready o -> (strict = true -> steady o) -> identity_fn o -> l_relu (o_layer o) = false ->
  sized_all (o_ins o) ins = true -> zip_samples ins = Ok xs ->
  Forall (fun x => in_range (l_paq (o_layer o)) (l_out (o_layer o)) (ysamp pw ln2 (o_layer o) x)) xs ->
  exists q, PX (Some (u, KQuant i)) = Ok (XLayer (fresh u 0, KFpq q (l_out (o_layer o)))) /\
    gsem (fresh u 0, KFpq q (l_out (o_layer o))) ins = Ok (map (yout pw ln2 (o_layer o)) xs).
Proof.
  intros Ho HR HT [g [Eg [Ei Hid]]] Hrelu Hs Hz Hin. destruct (obj_proxy o xs HR Hin) as [p [Ep Ec]].
  destruct HR as [HO [Hrec HC]]. pose proof (fun H => layer_fmt pw ln2 o S0 xs p HS HO HC (HT H) Hin Ep) as HG. destruct HO as [L1 _]. destruct (proxy_shape _ _ L1 Ep) as [Po [Pl [Pc PF]]]. rewrite Eg in PF.
  destruct (p_chain p) as [q|q1 q2] eqn:Ech; [|destruct Pc; congruence]. destruct Pc as [Pq _]. exists q. split.
  { unfold proxy_xf, get. rewrite Ho. cbn [rbind]. rewrite Pq. reflexivity. }
  rewrite Ei in Hs. pose proof (sized_all_length _ _ Hs) as Hl. destruct ins as [|b [|? ?]]; try discriminate. rewrite zip_one in Hz. injection Hz as <-.
  unfold sized_all in Hs. cbn in Hs. rewrite andb_true_r in Hs. change (sized (l_out (o_layer o)) b = true) in Hs.
  assert (Eb : map (p_op p) (map (fun s : list Qc => [s]) b) = b).
  { rewrite map_map. rewrite <- (map_id b) at 2. apply map_ext_in. intros s Hsb. rewrite PF. apply Hid.
    apply sized_spec in Hs. rewrite Forall_forall in Hs. apply Hs, Hsb. }
  unfold pcall in Ec. rewrite Ech, Po, Eb in Ec. rewrite gsem_fpq by (intros H; specialize (HG H); rewrite Eb in HG; exact HG). unfold psem, call_layer. cbn [snd one rbind]. rewrite Hs. cbn [negb].
  destruct (fpq_call q false _) as [y|]; [|discriminate]. cbn [rbind fst] in *. exact Ec.
Qed.

Lemma bidx_self s : forall e, e < prodn s -> bidx s s e = e.
Proof.
  induction s as [|a s IH]; intros e He; [cbn in *; lia|]. cbn [bidx]. rewrite prodn_cons in He. assert (NZ : prodn s <> 0) by nia.
  rewrite IH by (apply Nat.mod_upper_bound; assumption).
  destruct (Nat.eqb_spec a 1) as [->|Ha].
  - rewrite Nat.mod_small by lia. lia.
  - rewrite (Nat.div_mod e (prodn s) NZ) at 3. lia.
Qed.
Lemma bshape_self s : bshape s s = Some s.
Proof. induction s as [|a s IH]; [reflexivity|]. cbn [bshape]. rewrite IH, Nat.eqb_refl. reflexivity. Qed.

Lemma sig_guard u c out b : sig_ok c out -> promise (u, KSig c out) [b] = true -> fpq_guard (fpq_init c "TRN" S0 tt) out b = true.
Proof.
  intros [Hs [HF Hl]] HP. apply fpq_guard_spec. intros s e Hsb He. unfold promise in HP. cbn [snd forallb] in HP. rewrite andb_true_r in HP.
  rewrite forallb_forall in HP. specialize (HP s Hsb). rewrite forallb_forall in HP. specialize (HP e (proj2 (in_seq _ _ _) (conj (Nat.le_0_l _) He))).
  set (ce := nth e (data c) (mkCfg 0 0 0)) in *.
  assert (EC : cfg_at (fpq_init c "TRN" S0 tt) out e = init_elem ce).
  { unfold cfg_at. cbn [fpq_init cfgs tmap shape data]. rewrite Hs. rewrite bidx_self by exact He. change (mkCfg 0 0 0) with (init_elem (mkCfg 0 0 0)) at 1. apply map_nth. }
  rewrite EC. rewrite Forall_forall in HF. assert (Hin : In ce (data c)) by (apply nth_In; rewrite Hl; exact He).
  destruct (HF ce Hin) as [Hk Hb]. apply (fits_representable _ _ Hk) in HP. destruct HP as [m [Hm Ex]]. unfold init_elem. destruct (Z.eqb_spec (bits ce) 0); [lia|].
  unfold fmt_ok. cbn [kn bits ints fpq_init rnd_name]. rewrite Ex. rewrite <- Qcmult_assoc, <- pow2_add. replace (ints ce - bits ce + (bits ce - ints ce))%Z with 0%Z by lia.
  rewrite pow2_0, Qcmult_1_r, qfloor_qz, (proj2 (codeb_spec _ _ _) Hm). cbn. rewrite orb_true_r. reflexivity.
Qed.

Lemma ksig_proxy u c out ins v : sig_ok c out -> promise (u, KSig c out) ins = true -> psem (u, KSig c out) ins = Ok v ->
  gsem (fresh u 0, KFpq (fpq_init c "TRN" S0 tt) out) ins = Ok v.
Proof.
  intros SO HP E. assert (HG : forall b, ins = [b] -> fpq_guard (fpq_init c "TRN" S0 tt) out b = true) by (intros b ->; eapply sig_guard; eassumption).
  destruct SO as [Hs [HF Hl]]. unfold psem, call_layer in E. cbn [snd] in E. destruct ins as [|b [|? ?]]; try discriminate. rewrite gsem_fpq by (intros; apply HG; reflexivity). clear HG.
  unfold psem, call_layer. cbn [snd one rbind] in *.
  destruct (sized out b) eqn:SZ; [|discriminate]. cbn [rbind fst negb] in *. injection E as <-.
  assert (SM : exists sat, SAT_MAP S0 = Some sat) by (destruct HS as [->| ->]; eexists; reflexivity). destruct SM as [sat ES].
  apply sized_spec in SZ.
  rewrite (fpq_samples (fpq_init c "TRN" S0 tt) TRN sat out out b eq_refl ES); [|cbn; exact Hs|apply bshape_self|exact SZ]. cbn [rbind fst].
  assert (EB : map (fsample TRN sat out out (data (cfgs (fpq_init c "TRN" S0 tt)))) b = b).
  { rewrite <- (map_id b) at 2. apply map_ext_in. intros s Hsb. rewrite Forall_forall in SZ. specialize (SZ s Hsb).
    apply (list_nth_ext (qz 0)); [rewrite fsample_length; congruence|]. intros e He. rewrite fsample_length in He. rewrite fsample_nth by assumption.
    rewrite bidx_self by assumption. unfold promise in HP. cbn [snd forallb] in HP. rewrite andb_true_r in HP.
    rewrite forallb_forall in HP. specialize (HP s Hsb). rewrite forallb_forall in HP. specialize (HP e (proj2 (in_seq _ _ _) (conj (Nat.le_0_l _) He))).
    set (ce := nth e (data c) (mkCfg 0 0 0)) in *.
    assert (EC : nth e (data (cfgs (fpq_init c "TRN" S0 tt))) (mkCfg 0 0 0) = init_elem ce).
    { cbn [fpq_init cfgs tmap data]. change (mkCfg 0 0 0) with (init_elem (mkCfg 0 0 0)) at 1. apply map_nth. }
    rewrite EC. rewrite Forall_forall in HF. assert (Hin : In ce (data c)) by (apply nth_In; rewrite Hl; exact He).
    destruct (HF ce Hin) as [Hk Hb]. apply (fits_representable _ _ Hk) in HP. unfold fval, init_elem. destruct (Z.eqb_spec (bits ce) 0); [lia|]. cbn [kn bits ints].
    apply (gfixed_id (nth e s (qz 0)) (kn ce) (bits ce) (ints ce) "TRN" S0); [exact Hk|lia|lia|exact HP| |].
    - intros Hsym. destruct HS as [H|H]; rewrite H in Hsym; discriminate.
    - unfold gfixed_quantizer. rewrite ES. reflexivity. }
  rewrite EB. rewrite samples_concat by exact SZ. reflexivity.
Qed.
End X.
