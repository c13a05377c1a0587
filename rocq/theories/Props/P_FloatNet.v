(** C90: networks, tracing and proxy models in IEEE single precision. *)
From Coq Require Import ZArith QArith Qcanon List Bool String Lia.
From Verif Require Import Base.Num Base.NumFacts Base.Tensor Base.Compute Model.FixedPoint Model.Quantizer Model.Layers Model.Graph Model.Convert Model.Trace
  Model.Float32 Model.FloatLayer Model.FloatNet Spec.Fixed Spec.Quant Spec.History Spec.Layer Spec.Graph Spec.Trace Spec.Float Spec.FloatLayer Spec.FloatNet
  Proofs.SoundP Proofs.CallP Proofs.LayersP Proofs.QuantizerP Proofs.TraceP Proofs.FeedP Proofs.TraceMinmaxP Proofs.TraceMoreP Proofs.ProxyModelP Proofs.FloatSumP Proofs.FloatModelP Proofs.FloatNetP Proofs.FloatProxyP Proofs.FloatProxyQ
  Props.P_Trace Props.P_ProxyModel Props.P_FloatLayer.
Import ListNotations.
Local Open Scope nat_scope.

(** C90: a network in which every call has room in the accumulator returns in float32 exactly what it returns in
    exact arithmetic, and records the same registers. *)
Theorem C90_network : forall pw ln2 acc m B st ys st', accumulator acc -> Forall obj_ok st -> leaves hgq_layer m ->
  every_call pw ln2 st (layer_call_exact pw ln2 st) m B ->
  call_model pw ln2 m B st = Ok (ys, st') -> call_model32 acc m B st = Ok (ys, st').
Proof.
  intros pw ln2 acc m B st ys st' HA HO HL HE E.
  exact (proj2 (net_exact pw ln2 acc HA st HO m B st ys st' HL (alike_refl st HO) E) HE).
Qed.
Print Assumptions C90_network.

(** C90: so does the calibration, with cover factor 1. *)
Theorem C90_trace : forall pw ln2 acc exact_bops m ds bsz rst no_bops st bops rs st', accumulator acc -> Forall obj_ok st -> leaves hgq_layer m ->
  (forall B, In B (batches ds bsz) -> every_call pw ln2 st (layer_call_exact pw ln2 st) m B) ->
  trace_minmax pw ln2 exact_bops m ds bsz rst (qz 1) no_bops st = Ok (bops, rs, st') ->
  trace_minmax32 acc exact_bops m ds bsz rst (qz 1) no_bops st = Ok (bops, rs, st').
Proof. intros pw ln2 acc eb m ds bsz rst nb st bops rs st' HA HO HL HE E. exact (trace_exact pw ln2 acc HA st HO eb m ds bsz rst nb bops rs st' HL HE E). Qed.
Print Assumptions C90_trace.

(** C90: after calibration, network and proxy model give in float32, each adding in its own order, one and the same
    output on every batch of calibration samples; it is the one of exact arithmetic. *)
Theorem C90_proxy_model : forall pw ln2 acc acc' exact_bops nin nodes outs n ds bsz c st bops rs st' (aggressive : bool) fuel names,
  let m := Sub nin nodes outs in
  let S := (if aggressive then "WRAP" else "SAT")%string in
  accumulator acc -> accumulator acc' ->
  Forall obj_ok st -> single m -> leaves (supported st m) m -> dataset n ds -> 0 < n -> 0 < bsz -> (qz 1 <= c)%Qc ->
  trace_minmax pw ln2 exact_bops m ds bsz true c false st = Ok (bops, rs, st') ->
  (forall i o, In i (top_layers m) -> nth_error st' i = Some o -> in_bounds (l_paq (o_layer o))) ->
  depth m + 2 <= fuel ->
  forall B, batch_of n ds B -> promises_kept pw ln2 m B st' ->
  every_call pw ln2 st' (fun x ins => layer_call_exact pw ln2 st' x ins /\ proxy_call_exact pw ln2 st' S x ins) m B ->
  exists pm ns s ys, to_proxy_model32 acc' fuel aggressive m names st' = Ok (pm, ns, s) /\ leaves proxy_layer pm /\
    call_model pw ln2 m B st' = Ok (ys, st') /\ call_model32 acc m B st' = Ok (ys, st') /\
    forall any, call_model32 acc pm B any = Ok (ys, any).
Proof.
  intros pw ln2 acc acc' eb nin nodes outs n ds bsz c st bops rs st' ag fuel names m S HA HA' HO Hs HL HD Hn Hb Hc ET HB Hf B HBt HP HE.
  apply (proxy_net32 pw ln2 eb acc acc' m n ds bsz c st st' bops rs HA HA' HO HL HD Hn Hb Hc ET HB S); try assumption.
  - unfold S. destruct ag; auto.
  - intros x H. discriminate H.
Qed.
Print Assumptions C90_proxy_model.

(** C90: from the calibration to the proxy model, all in float32. *)
Theorem C90_deployment : forall pw ln2 acc acc' exact_bops nin nodes outs n ds bsz st bops rs st' (aggressive : bool) fuel names,
  let m := Sub nin nodes outs in
  let S := (if aggressive then "WRAP" else "SAT")%string in
  accumulator acc -> accumulator acc' ->
  Forall obj_ok st -> single m -> leaves (supported st m) m -> dataset n ds -> 0 < n -> 0 < bsz ->
  (forall B, In B (batches ds bsz) -> every_call pw ln2 st (layer_call_exact pw ln2 st) m B) ->
  trace_minmax pw ln2 exact_bops m ds bsz true (qz 1) false st = Ok (bops, rs, st') ->
  (forall i o, In i (top_layers m) -> nth_error st' i = Some o -> in_bounds (l_paq (o_layer o))) ->
  depth m + 2 <= fuel ->
  trace_minmax32 acc exact_bops m ds bsz true (qz 1) false st = Ok (bops, rs, st') /\
  forall B, batch_of n ds B -> promises_kept pw ln2 m B st' ->
  every_call pw ln2 st' (fun x ins => layer_call_exact pw ln2 st' x ins /\ proxy_call_exact pw ln2 st' S x ins) m B ->
  exists pm ns s ys, to_proxy_model32 acc' fuel aggressive m names st' = Ok (pm, ns, s) /\
    call_model32 acc m B st' = Ok (ys, st') /\ forall any, call_model32 acc pm B any = Ok (ys, any).
Proof.
  intros pw ln2 acc acc' eb nin nodes outs n ds bsz st bops rs st' ag fuel names m S HA HA' HO Hs HL HD Hn Hb HT ET HB Hf. split.
  - apply (C90_trace pw ln2); try assumption. eapply leaves_impl; [|exact HL]. intros [u k] H. destruct k; exact I || exact H.
  - intros B HBt HP HE. destruct (C90_proxy_model pw ln2 acc acc' eb nin nodes outs n ds bsz (qz 1) st bops rs st' ag fuel names HA HA' HO Hs HL HD Hn Hb (Qcle_refl _) ET HB Hf B HBt HP HE)
      as (pm & ns & s & ys & E1 & _ & _ & E2 & E3). exists pm, ns, s, ys. auto.
Qed.
Print Assumptions C90_deployment.

(** ** Checking the conditions for a concrete network: multiples of 2^-12, at most 24 bits *)
Definition rangeb (G : Z) (ts : list Qc) : bool :=
  Z.leb (-149) G && Z.leb G 103 && (forallb (on_gridb G) ts && qleb (asum ts) (pow2 (G + 23))).
Lemma rangeb_ok G ts : rangeb G ts = true -> exact_range G ts.
Proof. unfold rangeb. intros H. apply andb_prop in H. destruct H as [H H2]. apply andb_prop in H. destruct H as [H1 H3]. apply Z.leb_le in H1, H3. apply exact_rangeb; [lia|exact H2]. Qed.
Definition bitsb (G r : Z) : bool := Z.leb (-100) r && Z.leb r 100 && Z.leb (-149) (G + r) && Z.leb (G + r) 76.
Lemma bitsb_ok G r : bitsb G r = true -> (-100 <= r <= 100 /\ -149 <= G + r <= 76)%Z.
Proof. unfold bitsb. intros H. repeat (apply andb_prop in H; destruct H as [H ?]). repeat match goal with X : Z.leb _ _ = true |- _ => apply Z.leb_le in X end. lia. Qed.
Lemma quantb_ok G r v fl : rangeb G [v] = true -> bitsb G r = true -> quantizes_exactly fl r v.
Proof.
  intros H HR. apply bitsb_ok in HR. unfold rangeb in H. apply andb_prop in H. destruct H as [H H2]. apply andb_prop in H. destruct H as [H1 H3]. apply Z.leb_le in H1, H3.
  apply (quantizesb G); [lia|lia|lia|exact H2].
Qed.
Definition valuesb (G : Z) (fs vs : list Qc) : bool := forallb (fun v => rangeb G [v]) vs && forallb (fun f => bitsb G (qround_even f)) fs.
Lemma valuesb_ok G s fs vs : valuesb G fs vs = true -> all_quantize_exactly s fs vs.
Proof.
  unfold valuesb. intros H v f r Hv Hf Hr. apply andb_prop in H. destruct H as [H1 H2]. rewrite forallb_forall in H1, H2. apply nearest_even_fun in Hr. subst r.
  apply (quantb_ok G); [apply H1, Hv|apply H2, Hf].
Qed.
Definition wfb {A} (t : tensor A) : bool := Nat.eqb (List.length (data t)) (prodn (shape t)).
Definition parametersb (G : Z) (l : hlayer) : bool :=
  match l_op l with
  | Fn _ => true
  | Linear _ kernel kq bias _ =>
      wfb kernel && wfb (q_fbw kq) && (match q_clip kq with None => true | Some (lo, hi) => forallb (fun f => qleb lo f && qleb f hi) (data (q_fbw kq)) end) &&
      valuesb G (data (q_fbw kq)) (data kernel) &&
      match bias with Some b => wfb b && valuesb G (data (q_fbw (l_paq l))) (data b) | None => true end
  end.
Lemma parametersb_ok G l : parametersb G l = true -> parameters_exact l.
Proof.
  unfold parametersb, parameters_exact. destruct (l_op l) as [ts kernel kq bias loc|g]; [|auto]. intros H. repeat (apply andb_prop in H; destruct H as [H ?]).
  apply Nat.eqb_eq in H. split; [exact H|]. split; [apply Nat.eqb_eq; assumption|]. split; [|split; [apply (valuesb_ok G); assumption|]].
  - unfold bits_clipped. destruct (q_clip kq) as [[lo hi]|]; [|exact I]. apply Forall_forall. intros f Hf. rewrite forallb_forall in H2. specialize (H2 f Hf).
    apply andb_prop in H2. destruct H2 as [A B]. split; apply qleb_true; assumption.
  - destruct bias as [b|]; [|exact I]. apply andb_prop in H0. destruct H0 as [A B]. split; [apply Nat.eqb_eq, A|apply (valuesb_ok G), B].
Qed.

Section Check.
Variables (pw : Qc -> Qc) (ln2 : Qc) (G : Z).
Definition layer_weights (l : hlayer) : result (list Qc * option (list Qc)) :=
  match l_op l with
  | Fn _ => Ok ([], None)
  | Linear _ kernel kq bias loc => rbind (fused_qkernel pw ln2 kernel kq) (fun w =>
      match bias with None => Ok (data w, None) | Some b0 => rbind (bias_forward pw ln2 (l_paq l) b0 false loc (fun _ => qz 0)) (fun b => Ok (data w, Some (data b))) end)
  end.
Lemma layer_weights_ok l w b : layer_weights l = Ok (w, b) -> quantized_weights pw ln2 l w b.
Proof.
  unfold layer_weights, quantized_weights. destruct (l_op l) as [ts kernel kq bias loc|g]; [|auto]. intros E. apply rbind_ok in E. destruct E as [t [E1 E]].
  destruct bias as [b0|]; [apply rbind_ok in E; destruct E as [t' [E2 E]]|]; injection E as <- <-; eauto 6.
Qed.
Definition proxy_weights (l : hlayer) : result (list Qc * option (list Qc)) :=
  match l_op l with
  | Fn _ => Ok ([], None)
  | Linear _ kernel kq bias loc => rbind (fused_qkernel pw ln2 kernel kq) (fun w =>
      match bias with None => Ok (data w, None) | Some b0 => rbind (fused_qbias pw ln2 l b0) (fun b => Ok (data w, Some (data b))) end)
  end.
Lemma proxy_weights_ok l w b : proxy_weights l = Ok (w, b) -> deployed_weights pw ln2 l w b.
Proof.
  unfold proxy_weights, deployed_weights. destruct (l_op l) as [ts kernel kq bias loc|g]; [|auto]. intros E. apply rbind_ok in E. destruct E as [t [E1 E]].
  destruct bias as [b0|]; [apply rbind_ok in E; destruct E as [t' [E2 E]]|]; injection E as <- <-; eauto 6.
Qed.
Definition summed (l : hlayer) (w : list Qc) (b : option (list Qc)) (x : list (list Qc)) (e : nat) : list Qc :=
  match l_op l with Fn g => [nth e (g x) (qz 0)] | Linear ts _ _ _ _ => terms l ts w b (hd [] x) e end.
Definition layerb (l : hlayer) (w : list Qc) (b : option (list Qc)) (xs : list (list (list Qc))) : bool :=
  forallb (fun f => bitsb G (qround_even f)) (data (q_fbw (l_paq l))) && forallb (fun e => Nat.ltb (Spec.Layer.group_of (l_paq l) (l_out l) e) (List.length (data (q_fbw (l_paq l))))) (seq 0 (prodn (l_out l))) &&
  forallb (fun x => forallb (fun e => rangeb G (summed l w b x e)) (seq 0 (prodn (l_out l)))) xs.
Lemma layerb_ok l w b xs : layerb l w b xs = true -> layer_exact l w b xs.
Proof.
  unfold layerb. intros H x e r Hx He Hr. apply andb_prop in H. destruct H as [H H3]. apply andb_prop in H. destruct H as [H1 H2].
  rewrite forallb_forall in H1, H2, H3. assert (Hs : In e (seq 0 (prodn (l_out l)))) by (apply in_seq; lia).
  specialize (H3 x Hx). rewrite forallb_forall in H3. specialize (H3 e Hs). specialize (H2 e Hs). apply Nat.ltb_lt in H2.
  apply nearest_even_fun in Hr. specialize (H1 _ (nth_In _ (qz 0) H2)). rewrite <- Hr in H1. unfold summed in H3. destruct (l_op l) as [ts kernel kq bias loc|g].
  - apply bitsb_ok in H1. split; [lia|]. exists G. split; [apply rangeb_ok, H3|lia].
  - apply (quantb_ok G); assumption.
Qed.
Definition formatb (c : qcfg) : bool := (Z.eqb (kn c) 0 || Z.eqb (kn c) 1) && Z.leb (kn c) (bits c) && Z.leb (bits c) 23 &&
  Z.leb (-100) (bits c - ints c) && Z.leb (bits c - ints c) 100 && Z.leb (-149) (G + (bits c - ints c)) && Z.leb (G + (bits c - ints c)) 0.
Definition proxyb (l : hlayer) (p : player) (w : list Qc) (b : option (list Qc)) (xs : list (list (list Qc))) : bool :=
  forallb (fun e => forallb formatb (formats_at l p e)) (seq 0 (prodn (l_out l))) &&
  forallb (fun x => forallb (fun e => rangeb G (summed l w b x e)) (seq 0 (prodn (l_out l)))) xs.
Lemma proxyb_ok l p w b xs : proxyb l p w b xs = true -> proxy_exact l p w b xs.
Proof.
  unfold proxyb. intros H x e Hx He. apply andb_prop in H. destruct H as [H1 H3].
  rewrite forallb_forall in H1, H3. assert (Hs : In e (seq 0 (prodn (l_out l)))) by (apply in_seq; lia).
  specialize (H3 x Hx). rewrite forallb_forall in H3. specialize (H3 e Hs). specialize (H1 e Hs). exists G. split.
  - unfold summed in H3. destruct (l_op l); apply rangeb_ok, H3.
  - rewrite forallb_forall in H1. apply Forall_forall. intros c Hc. specialize (H1 c Hc). unfold formatb in H1. repeat (apply andb_prop in H1; destruct H1 as [H1 ?]).
    repeat match goal with X : Z.leb _ _ = true |- _ => apply Z.leb_le in X end. apply orb_prop in H1. unfold format_exact.
    destruct H1 as [H1|H1]; apply Z.eqb_eq in H1; lia.
Qed.

Variable st : store.
Definition layer_callb (x : layer) (ins : list (list sample)) : bool :=
  match snd x with
  | KH i | KQuant i => match nth_error st i, zip_samples ins with
      | Some o, Ok xs => parametersb G (o_layer o) && match layer_weights (o_layer o) with Ok (w, b) => layerb (o_layer o) w b xs | Raise => false end
      | _, _ => true
      end
  | _ => true
  end.
Lemma layer_callb_ok x ins : layer_callb x ins = true -> layer_call_exact pw ln2 st x ins.
Proof.
  unfold layer_callb, layer_call_exact. destruct (snd x); try (intros _; exact I); intros H o xs Ho Hz; rewrite Ho, Hz in H; apply andb_prop in H; destruct H as [H1 H2];
    (split; [apply (parametersb_ok G), H1|]); (destruct (layer_weights (o_layer o)) as [[w b]|] eqn:E; [|discriminate]); exists w, b; (split; [apply layer_weights_ok, E|apply layerb_ok, H2]).
Qed.
Definition proxy_callb (S : string) (x : layer) (ins : list (list sample)) : bool :=
  match snd x with
  | KH i | KQuant i => match nth_error st i, zip_samples ins with
      | Some o, Ok xs => match to_proxy pw ln2 (o_layer o) S with
          | Ok p => parametersb G (o_layer o) && match proxy_weights (o_layer o) with Ok (w, b) => proxyb (o_layer o) p w b xs | Raise => false end
          | Raise => true
          end
      | _, _ => true
      end
  | KSig c _ => forallb (fun f => Z.leb (bits f) 23 && Z.leb (-100) (bits f - ints f) && Z.leb (bits f - ints f) 100) (data c)
  | _ => true
  end.
Lemma proxy_callb_ok S x ins : proxy_callb S x ins = true -> proxy_call_exact pw ln2 st S x ins.
Proof.
  unfold proxy_callb, proxy_call_exact. destruct (snd x) as [i|i|c out| | | | | |]; try (intros _; exact I).
  1,2: intros H o xs p Ho Hz Hp; rewrite Ho, Hz, Hp in H; apply andb_prop in H; destruct H as [H1 H2];
    (split; [apply (parametersb_ok G), H1|]); (destruct (proxy_weights (o_layer o)) as [[w b]|] eqn:E; [|discriminate]); exists w, b; (split; [apply proxy_weights_ok, E|apply proxyb_ok, H2]).
  intros H. apply Forall_forall. intros f Hf. rewrite forallb_forall in H. specialize (H f Hf). repeat (apply andb_prop in H; destruct H as [H ?]).
  repeat match goal with X : Z.leb _ _ = true |- _ => apply Z.leb_le in X end. lia.
Qed.
Definition every_callb (P : layer -> list (list sample) -> bool) (m : klayer layer) (B : list (list sample)) : bool :=
  match run (noting pw ln2 st) m B [] with Ok (_, log) => forallb (fun c => P (fst c) (snd c)) log | Raise => false end.
Lemma every_callb_ok (P : layer -> list (list sample) -> Prop) Pb m B : (forall x ins, Pb x ins = true -> P x ins) -> every_callb Pb m B = true -> every_call pw ln2 st P m B.
Proof.
  intros HP H ys log E. unfold every_callb in H. rewrite E in H. rewrite forallb_forall in H. apply Forall_forall. intros c Hc. apply HP, H, Hc.
Qed.
End Check.

(** ** Example: the network of C32_ex (two inputs, a Signature, an HQuantize, a dense layer with ReLU, dropout, a nested
    model and a sigmoid-like activation) with weights that are floats, calibrated and converted in float32. *)
Definition exf_store : store :=
  [ex_obj (Fn ex_id) [qz 2; qz 1] AOther;
   mkO (mkL (Linear [[(0, 0); (1, 2)]; [(0, 1); (1, 3)]] (mkT [2; 2] [Q2Qc (11 # 32); Q2Qc (-11 # 16); Q2Qc (9 # 8); qz 1])
          (hgq_build (mkT [1; 1] [qz 3]) None 0 true None) (Some (mkT [2] [Q2Qc (5 # 16); Q2Qc (-3 # 16)])) (-1)) (ex_q [qz 2; qz 3]) true (-1) [2]) false AOther [[2]] (qz 7);
   ex_obj (Fn ex_sig) [qz 3; qz 3] ASigmoid].
Lemma exf_ok : Forall obj_ok exf_store.
Proof.
  apply Forall_cons; [apply ex_obj_ok; [reflexivity|repeat constructor; vm_compute; discriminate|reflexivity]|]. apply Forall_cons.
  - split; [|split; [|split]].
    + split; [exists [2]; cbn; auto 6|]. split; [cbn; lia|]. split; [reflexivity|]. split; [eexists; reflexivity|]. split; [reflexivity|]. exists 2. split; [lia|]. split; [reflexivity|].
      left. split; [reflexivity|]. exists []. reflexivity.
    + exists [], [2]. cbn. split; [reflexivity|]. split; [left; reflexivity|]. repeat split; cbn; auto.
    + repeat constructor; vm_compute; discriminate.
    + exact I.
  - apply Forall_cons; [apply ex_obj_ok; [reflexivity|repeat constructor; vm_compute; discriminate|reflexivity]|apply Forall_nil].
Qed.
Lemma exf_supported : leaves (supported exf_store exp_m) exp_m.
Proof.
  eapply leaves_impl; [|exact exp_supported]. intros [u k] H. unfold supported in *. cbn [snd] in *. destruct k as [i|i|c out|g|p| |g|q out|]; try exact H.
  - destruct H as [Hi [o [Ho Ha]]]. split; [exact Hi|]. destruct i as [|[|[|i]]]; cbn in Ho.
    + injection Ho as <-. eexists. split; [reflexivity|exact Ha].
    + eexists. split; [reflexivity|exact I].
    + injection Ho as <-. eexists. split; [reflexivity|exact Ha].
    + destruct i; discriminate.
  - destruct H as [Hi [o [Ho [Ha [Hd Hr]]]]]. split; [exact Hi|]. destruct i as [|[|[|i]]]; cbn in Ho.
    + injection Ho as <-. eexists. split; [reflexivity|]. split; [exact Ha|]. split; [exact Hd|exact Hr].
    + injection Ho as <-. discriminate Hr.
    + injection Ho as <-. eexists. split; [reflexivity|]. split; [exact Ha|]. split; [exact Hd|exact Hr].
    + destruct i; discriminate.
Qed.
Example C90_ex : forall pw ln2, accumulator acc_fma /\ accumulator acc_left /\ Forall obj_ok exf_store /\ single exp_m /\ leaves (supported exf_store exp_m) exp_m /\ dataset 3 exp_ds /\
  (forall B, In B (batches exp_ds 2) -> every_call pw ln2 exf_store (layer_call_exact pw ln2 exf_store) exp_m B) /\
  exists bops rs st', trace_minmax pw ln2 ex_eb exp_m exp_ds 2 true (qz 1) false exf_store = Ok (bops, rs, st') /\
  (forall i o, In i (top_layers exp_m) -> nth_error st' i = Some o -> in_bounds (l_paq (o_layer o))) /\
  batch_of 3 exp_ds exp_ds /\ promises_kept pw ln2 exp_m exp_ds st' /\
  every_call pw ln2 st' (fun x ins => layer_call_exact pw ln2 st' x ins /\ proxy_call_exact pw ln2 st' "WRAP" x ins) exp_m exp_ds /\
  trace_minmax32 acc_fma ex_eb exp_m exp_ds 2 true (qz 1) false exf_store = Ok (bops, rs, st') /\
  exists pm ns s ys, to_proxy_model32 acc_left 6 true exp_m exp_names st' = Ok (pm, ns, s) /\
    call_model32 acc_fma exp_m exp_ds st' = Ok (ys, st') /\ (forall any, call_model32 acc_fma pm exp_ds any = Ok (ys, any)) /\
    map this (exp_flat ys) = [1 # 2; 1; 1; 1; 3 # 4; 1; 5 # 4; 0; 0; 7 # 8; 5 # 2; 15 # 8]%Q.
Proof.
  intros pw ln2. split; [exact acc_fma_ok|]. split; [exact acc_left_ok|]. split; [exact exf_ok|]. split; [exact exp_single|]. split; [exact exf_supported|]. split; [exact exp_dataset|].
  assert (HT : forall B, In B (batches exp_ds 2) -> every_call pw ln2 exf_store (layer_call_exact pw ln2 exf_store) exp_m B).
  { assert (F : forallb (every_callb pw ln2 exf_store (layer_callb pw ln2 (-12) exf_store) exp_m) (batches exp_ds 2) = true) by (vm_compute; reflexivity).
    rewrite forallb_forall in F. intros B HB. apply (every_callb_ok pw ln2 exf_store _ _ exp_m B (layer_callb_ok pw ln2 (-12) exf_store) (F B HB)). }
  split; [exact HT|].
  assert (H : rbind (trace_minmax pw ln2 ex_eb exp_m exp_ds 2 true (qz 1) false exf_store) (fun r =>
     Ok (forallb (fun o => in_bounds_b (l_paq (o_layer o))) (snd r),
         match run (checked pw ln2) exp_m exp_ds (snd r) with Ok _ => true | Raise => false end,
         rmap (fun r => map this (exp_flat (fst r))) (call_model pw ln2 exp_m exp_ds (snd r)),
         every_callb pw ln2 (snd r) (fun x ins => layer_callb pw ln2 (-12) (snd r) x ins && proxy_callb pw ln2 (-12) (snd r) "WRAP" x ins) exp_m exp_ds)) =
     Ok (true, true, Ok [1 # 2; 1; 1; 1; 3 # 4; 1; 5 # 4; 0; 0; 7 # 8; 5 # 2; 15 # 8]%Q, true)) by (vm_compute; reflexivity).
  destruct (trace_minmax pw ln2 ex_eb exp_m exp_ds 2 true (qz 1) false exf_store) as [[[bops rs] st']|] eqn:ET; [|discriminate]. cbn [rbind snd] in H.
  apply ok4 in H. destruct H as [H1 [H2 [HV H]]]. exists bops, rs, st'. split; [reflexivity|].
  assert (HB : forall i o, In i (top_layers exp_m) -> nth_error st' i = Some o -> in_bounds (l_paq (o_layer o))).
  { intros i o _ Ho. apply in_bounds_b_ok. rewrite forallb_forall in H1. apply H1. eapply nth_error_In, Ho. }
  assert (HBt : batch_of 3 exp_ds exp_ds) by (exists [0; 1; 2]; split; [discriminate|]; split; [repeat constructor|reflexivity]).
  assert (HP : promises_kept pw ln2 exp_m exp_ds st') by (unfold promises_kept; destruct (run (checked pw ln2) exp_m exp_ds st'); [eauto|discriminate H2]).
  split; [exact HB|]. split; [exact HBt|]. split; [exact HP|].
  assert (HE : every_call pw ln2 st' (fun x ins => layer_call_exact pw ln2 st' x ins /\ proxy_call_exact pw ln2 st' "WRAP" x ins) exp_m exp_ds).
  { refine (every_callb_ok pw ln2 st' _ _ exp_m exp_ds _ H). intros x ins Hx. cbv beta in Hx. apply andb_prop in Hx. destruct Hx as [X1 X2].
    split; [apply (layer_callb_ok pw ln2 (-12)), X1|apply (proxy_callb_ok pw ln2 (-12)), X2]. }
  split; [exact HE|].
  destruct (C90_deployment pw ln2 acc_fma acc_left ex_eb _ _ _ 3 exp_ds 2 exf_store bops rs st' true 6 exp_names acc_fma_ok acc_left_ok exf_ok exp_single exf_supported exp_dataset
    ltac:(lia) ltac:(lia) HT ET HB ltac:(cbn; lia)) as [E32 C]. split; [exact E32|].
  destruct (C90_proxy_model pw ln2 acc_fma acc_left ex_eb _ _ _ 3 exp_ds 2 (qz 1) exf_store bops rs st' true 6 exp_names acc_fma_ok acc_left_ok exf_ok exp_single exf_supported exp_dataset
    ltac:(lia) ltac:(lia) (Qcle_refl _) ET HB ltac:(cbn; lia) exp_ds HBt HP HE) as (pm & ns & s & ys & E1 & _ & EX & E2 & E3).
  exists pm, ns, s, ys. split; [exact E1|]. split; [exact E2|]. split; [exact E3|].
  change (call_model pw ln2 exp_m exp_ds st' = Ok (ys, st')) in EX. rewrite EX in HV. cbn [rmap fst] in HV. injection HV as ->. reflexivity.
Qed.
