(** Models with calibrated ranges of any origin, and their proxies (C94). *)
From Coq Require Import ZArith QArith Qcanon List Bool String Lia.
From Verif Require Import Base.Num Base.NumFacts Base.Tensor Model.FixedPoint Model.Quantizer Model.Layers Model.Graph
  Model.Convert Model.Trace Model.Float32 Model.FloatLayer Model.FloatNet Spec.Fixed Spec.Quant Spec.History Spec.Layer Spec.Graph Spec.Trace Spec.Steady Spec.Calib Spec.Unseen Spec.Prepared
  Spec.Float Spec.FloatLayer Spec.FloatNet Proofs.TensorP Proofs.QuantizerP
  Proofs.BitsP Proofs.CallP Proofs.SampleP Proofs.LayersP Proofs.ConvertP
  Proofs.TraceP Proofs.FeedP Proofs.TraceMinmaxP Proofs.CoverP Proofs.TraceMoreP Proofs.ProxyModelP Proofs.ProxyLayerP Proofs.ProxyConvP Proofs.ProxyTraceP Proofs.ProxyGuardP
  Proofs.CalibP Proofs.UnseenP Proofs.FloatSumP Proofs.FloatLayerP Proofs.FloatModelP Proofs.FloatNetP Proofs.FloatProxyP Proofs.FloatProxyQ.
Import ListNotations.
Local Open Scope nat_scope.

Section P.
Variables (pw : Qc -> Qc) (ln2 : Qc) (m : klayer layer) (st : store).
Hypothesis HO : Forall obj_ok st.
Hypothesis HL : leaves (supported st m) m.
Hypothesis HP : prepared m st.

Lemma prepared_quiet : leaves (on_object (quiet st)) m.
Proof.
  eapply leaves_impl; [|exact HL]. intros [u k] H. unfold on_object, supported in *. cbn [snd] in *. destruct k; try exact I;
    (destruct H as [Hi _]; destruct (HP _ Hi) as [o [E [Hr _]]]; exists o; auto).
Qed.

Lemma prepared_eval strict S0 : (strict = true -> forall i o, In i (top_layers m) -> nth_error st i = Some o -> steady o) ->
  S0 = "WRAP"%string \/ S0 = "SAT"%string -> forall B, inside pw ln2 m B st -> promises_kept pw ln2 m B st ->
  exists ys, eval (isem pw ln2 S0 st strict) m B = Ok ys /\ leaves (fun x => exists lx, proxy_xf pw ln2 S0 st (Some x) = Ok lx) m /\
    call_model pw ln2 m B st = Ok (ys, st).
Proof.
  intros HSt HS B [outs ER] HPk.
  pose proof (listening_ok st HO) as OL.
  assert (TWL : forall o, twin o (with_record o true) /\ twin (with_record o true) o).
  { intros o. destruct (twin_refl o) as [A _]. split; (split; [exact A|split; reflexivity]). }
  assert (IB : Inv m (listening st) st (listening st)).
  { intros V [_ RVB] i g v Hi [o1 [E1 Hg]] Hv. destruct (HP i Hi) as [o' [E' [_ HC]]].
    rewrite listening_nth, E' in E1. injection E1 as <-. assert (E1 : nth_error (listening st) i = Some (with_record o' true)) by (rewrite listening_nth, E'; reflexivity).
    destruct (RVB i _ E1) as [oB [EB RB]]. assert (oB = with_record o' true) by congruence. subst oB.
    pose proof (obj_rel_stays (with_record o' true) _ eq_refl RB g v Hg Hv) as [K1 K2]. cbn [with_record o_layer] in *.
    destruct (HC g Hg) as (r & mn & mx & _ & _ & H1 & H2 & _). rewrite H1 in K1. rewrite H2 in K2. exists o', mn, mx. repeat split; assumption. }
  assert (HT0 : forall i, In i (top_layers m) -> exists o o1 o', nth_error st i = Some o /\ nth_error (listening st) i = Some o1 /\ nth_error st i = Some o' /\
      twin o o1 /\ twin o1 o' /\ o_record o1 = true /\ o_record o' = false /\
      (act_ok o1 -> calibrated (l_paq (o_layer o')) /\
       forall g v xs, g < ngroups (l_paq (o_layer o1)) -> in_group (ngroups (l_paq (o_layer o1))) g (ysamp pw ln2 (o_layer o1) xs) v -> inr st i g v -> inr st i g v)).
  { intros i Hi. destruct (HP i Hi) as [o' [E' [Hr HC]]]. exists o', (with_record o' true), o'. split; [assumption|]. split; [rewrite listening_nth, E'; reflexivity|].
    split; [assumption|]. split; [apply TWL|]. split; [apply TWL|]. split; [reflexivity|]. split; [assumption|]. intros _. split; [assumption|]. auto. }
  assert (GL : leaves (guard_leaf (call_layer pw ln2) (hsem pw ln2 st) (isem pw ln2 S0 st strict) (Fwd (listening st)) (Inv m (listening st) st)) m).
  { eapply leaves_impl; [|exact HL]. intros x Hx. eapply guard_supported; eassumption. }
  destruct (run_guard (call_layer pw ln2) (hsem pw ln2 st) (isem pw ln2 S0 st strict) (Fwd (listening st)) (Inv m (listening st) st) m GL B (listening st) outs (listening st)
    (ex_intro _ noV (rel_refl (listening st) noV (fun _ _ _ H => H))) ER) as [_ [_ GC]]. specialize (GC IB).
  pose proof prepared_quiet as QL.
  assert (EH : exists o2, eval (hsem pw ln2 st) m B = Ok o2).
  { destruct HPk as [r Er]. rewrite (run_const (checked pw ln2) (hsem pw ln2 st) st) in Er.
    - destruct (eval _ _ _) as [o2|]; [eauto|discriminate].
    - eapply leaves_impl; [|exact QL]. intros x Hx vs. unfold checked, hsem. destruct (promise x vs); [|reflexivity]. unfold psem.
      destruct (call_layer pw ln2 x vs st) as [[v s]|] eqn:Ec; [|reflexivity]. cbn [rbind fst]. rewrite (quiet_leaf pw ln2 x vs st v s HO Hx Ec). reflexivity. }
  destruct EH as [o2 EH]. destruct (GC o2 EH) as [_ EI].
  exists outs. split; [exact EI|]. split.
  { eapply leaves_impl; [|exact HL]. intros [u k] Hx. unfold supported in Hx. cbn [snd] in Hx.
    destruct k as [i|i|cf out|g|[|]| |g|q out|]; cbn [proxy_xf]; eauto.
    - destruct Hx as [Hi [o [E0 HA]]]. destruct (HP i Hi) as [o' [E' [Hr' HCal]]].
      assert (Ok' : obj_ok o') by (rewrite Forall_forall in HO; apply HO; eapply nth_error_In, E').
      destruct (obj_proxy pw ln2 S0 HS o' [] (conj Ok' (conj Hr' HCal)) (Forall_nil _)) as [p [Ep _]]. eexists. apply (px_kh pw ln2 S0 st u i o' p E' Ep).
    - destruct Hx as [Hi [o [E0 [HA [Hid Hre]]]]]. destruct (HP i Hi) as [o' [E' [Hr' HCal]]]. assert (o' = o) by congruence. subst o'.
      assert (Ok' : obj_ok o) by (rewrite Forall_forall in HO; apply HO; eapply nth_error_In, E').
      destruct (obj_proxy pw ln2 S0 HS o [] (conj Ok' (conj Hr' HCal)) (Forall_nil _)) as [p [Ep _]]. destruct (proxy_shape pw ln2 S0 _ _ (proj1 Ok') Ep) as [_ [_ [Pc _]]].
      destruct (p_chain p) as [q|q1 q2]; [|destruct Pc; congruence]. destruct Pc as [Pq _]. unfold get. rewrite E'. cbn [rbind]. rewrite Pq. cbn [rbind]. eauto. }
  unfold call_model. rewrite (run_const (call_layer pw ln2) (psem pw ln2 st) st).
  - rewrite (eval_mono (isem pw ln2 S0 st strict) (psem pw ln2 st) m) with (outs := outs); [reflexivity| |exact EI].
    eapply leaves_impl; [|exact HL]. intros x _ vs v Ev. eapply gsem_psem, isem_ps, Ev.
  - eapply leaves_impl; [|exact QL]. intros x Hx vs. unfold psem. destruct (call_layer pw ln2 x vs st) as [[v s0]|] eqn:Ec; [|reflexivity].
    cbn [rbind fst]. rewrite (quiet_leaf pw ln2 x vs st v s0 HO Hx Ec). reflexivity.
Qed.

Lemma prepared_model strict S0 : (strict = true -> forall i o, In i (top_layers m) -> nth_error st i = Some o -> steady o) ->
  S0 = "WRAP"%string \/ S0 = "SAT"%string -> single m -> (forall x, m <> Leaf x) -> forall fuel names B,
  depth m + 2 <= fuel -> inside pw ln2 m B st -> promises_kept pw ln2 m B st ->
  exists pm ns s ys, convert_model (fun x => fst x) (proxy_xf pw ln2 S0 st) fuel m names = Ok (pm, ns, s) /\ leaves proxy_layer pm /\
    call_model pw ln2 m B st = Ok (ys, st) /\ eval (gsem pw ln2 st strict) pm B = Ok ys /\ forall st'', call_model pw ln2 pm B st'' = Ok (ys, st'').
Proof.
  intros HSt HS Hsg HNL fuel names B Hfu HI HPk.
  destruct (prepared_eval strict S0 HSt HS B HI HPk) as [outs [EI [HX EC]]].
  destruct (conversion pw ln2 S0 st HS strict fuel m names B outs Hsg HNL HX Hfu EI) as [pm [ns [s [C1 [C2 [CG C3]]]]]].
  exists pm, ns, s, outs. auto.
Qed.

Variables (acc acc' : list (Qc * Qc) -> Qc).
Hypothesis HA : accumulator acc.
Hypothesis HA' : accumulator acc'.
Lemma prepared_net32 S0 : S0 = "WRAP"%string \/ S0 = "SAT"%string -> single m -> (forall x, m <> Leaf x) -> forall fuel names B,
  depth m + 2 <= fuel -> inside pw ln2 m B st -> promises_kept pw ln2 m B st ->
  every_call pw ln2 st (fun x ins => layer_call_exact pw ln2 st x ins /\ proxy_call_exact pw ln2 st S0 x ins) m B ->
  exists pm ns s ys, convert_model (fun x => fst x) (proxy_xf32 acc' S0 st) fuel m names = Ok (pm, ns, s) /\ leaves proxy_layer pm /\
    call_model pw ln2 m B st = Ok (ys, st) /\ call_model32 acc m B st = Ok (ys, st) /\ forall any, call_model32 acc pm B any = Ok (ys, any).
Proof.
  intros HS Hs HN fuel names B Hf HI HPk HE.
  destruct (prepared_eval false S0 (fun H => ltac:(discriminate H)) HS B HI HPk) as [ys [EI [_ EC]]].
  assert (HL' : leaves hgq_layer m) by (eapply leaves_impl; [|exact HL]; intros [u k] H; destruct k; exact I || exact H).
  assert (SUP : leaves (fun x => supported st m x /\ match snd x with KH i | KQuant i => forall o, nth_error st i = Some o -> calibrated (l_paq (o_layer o)) | _ => True end) m).
  { eapply leaves_impl; [|exact HL]. intros [u k] Hx. split; [exact Hx|]. unfold supported in *. cbn [snd] in *. destruct k; try exact I;
      (destruct Hx as [Hi _]; destruct (HP _ Hi) as [o' [E' [_ HC]]]; intros o2 E2; assert (o2 = o') by congruence; subst o2; exact HC). }
  assert (G : leaves (noted_leaf (pure (isem pw ln2 S0 st false)) (pure (isem32 acc acc' S0 st)) (psem pw ln2 st) (fun _ => True)
    (fun x ins => layer_call_exact pw ln2 st x ins /\ proxy_call_exact pw ln2 st S0 x ins)) m).
  { eapply leaves_impl; [|exact SUP]. intros x [Hx Hcal] vs [] v [] _ E. unfold pure in E. apply rbind_ok in E. destruct E as [w [E Ew]]. injection Ew as ->.
    split; [exact I|]. split; [rewrite <- gsem_false; apply (isem_ps pw ln2 S0 st false x vs v E)|]. intros [X1 X2].
    unfold pure. rewrite (leaf_32 pw ln2 acc acc' S0 st HS HA HA' HO m x vs v Hcal Hx X1 X2 E). reflexivity. }
  unfold eval in EI. apply rbind_ok in EI. destruct EI as [[ys' []] [EI Ey]]. injection Ey as ->.
  destruct (run_noted _ _ _ _ _ m G B tt ys tt [] I EI) as [_ [new [N C]]]. cbn [app] in N.
  assert (F : Forall (fun c0 => layer_call_exact pw ln2 st (fst c0) (snd c0) /\ proxy_call_exact pw ln2 st S0 (fst c0) (snd c0)) new).
  { apply (HE ys new). rewrite (noting_note pw ln2 st). exact N. }
  pose proof (C F) as E32.
  assert (EV : eval (isem32 acc acc' S0 st) m B = Ok ys) by (unfold eval; rewrite E32; reflexivity).
  assert (LX : leaves (fun x => exists lx, proxy_xf32 acc' S0 st (Some x) = Ok lx) m).
  { eapply leaves_impl; [|apply (run_called _ _ _ _ _ E32)]. intros x [vs [s0 [r0 Er]]]. unfold pure in Er. apply rbind_ok in Er. destruct Er as [v [Er _]].
    unfold isem32 in Er. apply rbind_ok in Er. destruct Er as [w [_ Er]]. destruct (proxy_xf32 acc' S0 st (Some x)) as [lx|]; [eauto|discriminate]. }
  destruct (conversion32 acc acc' S0 st HS fuel m names B ys Hs HN LX Hf EV) as [pm [ns [s [EC' [PL CP]]]]].
  exists pm, ns, s, ys. split; [exact EC'|]. split; [exact PL|]. split; [exact EC|]. split; [|exact CP].
  destruct (net_exact pw ln2 acc HA st HO m B st ys st HL' (alike_refl st HO) EC) as [_ NE]. apply NE.
  intros ys0 log El. eapply Forall_impl; [|exact (HE ys0 log El)]. intros a [X _]. exact X.
Qed.
End P.

(** What trace_minmax leaves behind is such a model. *)
Lemma trace_prepared pw ln2 eb m n ds bsz c st st' bops rs : Forall obj_ok st -> leaves (supported st m) m -> dataset n ds -> 0 < n -> 0 < bsz -> (qz 1 <= c)%Qc ->
  trace_minmax pw ln2 eb m ds bsz true c false st = Ok (bops, rs, st') ->
  (forall i o, In i (top_layers m) -> nth_error st' i = Some o -> in_bounds (l_paq (o_layer o))) ->
  Forall obj_ok st' /\ leaves (supported st' m) m /\ prepared m st'.
Proof.
  intros HO HL HD Hn Hb Hc ET HB.
  assert (HL' : leaves hgq_layer m) by (eapply leaves_impl; [|exact HL]; intros [u k] H; destruct k; exact I || exact H).
  destruct (calibration pw ln2 eb m n ds bsz c st st' bops rs HO HL HD Hn Hb Hc ET HB) as [st1 [st2 [O1 [HR [RV HT]]]]].
  split; [exact (trace_ok pw ln2 eb m n ds bsz true c false st bops rs st' HO HL' HD Hb ET)|]. split.
  - eapply leaves_impl; [|exact HL]. intros [u k] Hx. unfold supported in *. cbn [snd] in *. destruct k; try exact Hx.
    + destruct Hx as [Hi [o [E0 Ha]]]. split; [exact Hi|]. destruct (HT _ Hi) as (o_ & o1 & o' & X1 & _ & X' & T1 & T2 & _). assert (o_ = o) by congruence. subst o_.
      exists o'. split; [exact X'|apply (twin_act _ _ (twin_trans _ _ _ T1 T2) Ha)].
    + destruct Hx as [Hi [o [E0 [Ha [Hid Hre]]]]]. split; [exact Hi|]. destruct (HT _ Hi) as (o_ & o1 & o' & X1 & _ & X' & T1 & T2 & _). assert (o_ = o) by congruence. subst o_.
      pose proof (twin_trans _ _ _ T1 T2) as T. exists o'. split; [exact X'|]. split; [apply (twin_act _ _ T Ha)|]. split; [apply (twin_id _ _ T Hid)|]. destruct T as [[a [b X]] _]. rewrite X. exact Hre.
  - intros i Hi. destruct (HT _ Hi) as (o & o1 & o' & X1 & _ & X' & T1 & _ & _ & Hr & _ & HC). exists o'. split; [exact X'|]. split; [exact Hr|].
    apply HC. apply (twin_act _ _ T1). eapply top_act; eassumption.
Qed.
