(** The proxy model computes what the traced model computes (C32). *)
From Coq Require Import ZArith Qcanon List Bool String Lia.
From Verif Require Import Base.Num Base.NumFacts Base.Tensor Model.FixedPoint Model.Quantizer Model.Layers Model.Graph
  Model.Convert Model.Trace Spec.Fixed Spec.Quant Spec.History Spec.Layer Spec.Graph Spec.Trace Spec.Steady Proofs.TensorP Proofs.QuantizerP
  Proofs.BitsP Proofs.CallP Proofs.SampleP Proofs.LayersP Proofs.ConvertP
  Proofs.TraceP Proofs.FeedP Proofs.TraceMinmaxP Proofs.CoverP Proofs.TraceMoreP Proofs.ProxyModelP Proofs.ProxyLayerP Proofs.ProxyConvP Proofs.ProxyTraceP.
Import ListNotations.
Local Open Scope nat_scope.

Section G.
Variables (pw : Qc -> Qc) (ln2 : Qc).

Lemma step_rel st1 V s i vs v s' : Forall obj_ok st1 -> rel st1 V s -> call_obj pw ln2 i vs s = Ok (v, s') ->
  exists o1 xs, nth_error st1 i = Some o1 /\ sized_all (o_ins o1) vs = true /\ zip_samples vs = Ok xs /\ v = map (yout pw ln2 (o_layer o1)) xs /\
    rel st1 (fun i' g w => V i' g w \/ (i' = i /\ exists x, In x xs /\ in_group (ngroups (l_paq (o_layer o1))) g (ysamp pw ln2 (o_layer o1) x) w)) s'.
Proof.
  intros HO R E. unfold call_obj in E. apply rbind_ok in E. destruct E as [o [Eo E]]. apply get_ok in Eo. pose proof R as [RL RR].
  destruct (nth_error st1 i) as [o1|] eqn:E1.
  2: { exfalso. apply nth_error_None in E1. apply nth_error_lt in Eo. lia. }
  destruct (RR i o1 E1) as [o' [Eo' Ro]]. assert (o' = o) by congruence. subst o'.
  destruct (obj_rel_fields _ _ _ Ro) as [Ei _]. rewrite Ei in E. destruct (sized_all (o_ins o1) vs) eqn:Es; [|discriminate]. cbn [negb] in E.
  destruct (zip_samples vs) as [xs|] eqn:Ez; [|discriminate]. cbn [rbind] in E.
  assert (O1 : obj_ok o1) by (rewrite Forall_forall in HO; apply HO; eapply nth_error_In, E1).
  destruct (obj_fwd pw ln2 o1 (V i) o xs O1 Ro) as [l' [El R']]. rewrite El in E. cbn [rbind fst snd] in E. injection E as <- <-.
  exists o1, xs. repeat (split; [assumption || reflexivity|]). split; [rewrite set_nth_length; assumption|]. intros i' o0 E0. rewrite set_nth_error.
  destruct (Nat.eqb_spec i i') as [<-|Hne].
  - rewrite (proj2 (Nat.ltb_lt _ _)) by (apply (nth_error_lt _ _ _ Eo)). replace o0 with o1 in * by congruence. exists (with_layer o l'). split; [reflexivity|].
    destruct R' as [mn [mx [A B]]]. exists mn, mx. split; [assumption|]. eapply reg_step_ext; [|exact B]. intros g w. cbn beta. tauto.
  - destruct (RR i' o0 E0) as [o'' [Eo'' [mn [mx [A B]]]]]. exists o''. split; [assumption|]. exists mn, mx. split; [assumption|].
    eapply reg_step_ext; [|exact B]. intros g w. cbn beta. split; [tauto|]. intros [H1 [H2|[H2 _]]]; [auto|congruence].
Qed.

Lemma twin_yout o o' x : twin o o' -> yout pw ln2 (o_layer o') x = yout pw ln2 (o_layer o) x.
Proof. intros [[mn [mx E]] _]. rewrite E. apply yout_mm. Qed.
Lemma twin_ysamp o o' x : twin o o' -> ysamp pw ln2 (o_layer o') x = ysamp pw ln2 (o_layer o) x.
Proof. intros [[mn [mx E]] _]. rewrite E. apply ysamp_mm. Qed.

Variables (S0 : string) (m : klayer layer) (st0 st1 st2 st' : store).
Hypothesis HS : S0 = "WRAP"%string \/ S0 = "SAT"%string.
Hypothesis HO1 : Forall obj_ok st1.
Hypothesis HO' : Forall obj_ok st'.
Definition inr (st : store) (i g : nat) (v : Qc) : Prop :=
  exists o mn mx, nth_error st i = Some o /\ holds_range (l_paq (o_layer o)) g mn mx /\ (mn <= v)%Qc /\ (v <= mx)%Qc.
Hypothesis Htop : forall i, In i (top_layers m) -> exists o o1 o', nth_error st0 i = Some o /\ nth_error st1 i = Some o1 /\ nth_error st' i = Some o' /\
  twin o o1 /\ twin o1 o' /\ o_record o1 = true /\ o_record o' = false /\
  (act_ok o1 -> calibrated (l_paq (o_layer o')) /\
   forall g v xs, g < ngroups (l_paq (o_layer o1)) -> in_group (ngroups (l_paq (o_layer o1))) g (ysamp pw ln2 (o_layer o1) xs) v -> inr st2 i g v -> inr st' i g v).

Variable strict : bool.
Hypothesis Hsteady : strict = true -> forall i o', In i (top_layers m) -> nth_error st' i = Some o' -> steady o'.

Definition Fwd (s : store) : Prop := exists V, rel st1 V s.
Definition Inv (s : store) : Prop := forall V, rel st1 V s -> forall i g v, In i (top_layers m) ->
  (exists o1, nth_error st1 i = Some o1 /\ g < ngroups (l_paq (o_layer o1))) -> V i g v -> inr st2 i g v.
Definition hsem (x : layer) (vs : list (list sample)) : result (list sample) := if promise x vs then psem pw ln2 st' x vs else Raise.
Notation isem := (isem pw ln2 S0 st' strict).

Lemma guard_obj u i (P : kind) vs s v s' : (P = KH i \/ P = KQuant i) -> supported st0 m (u, P) -> Fwd s -> call_obj pw ln2 i vs s = Ok (v, s') ->
  Fwd s' /\ (Inv s' -> Inv s) /\ (Inv s' -> psem pw ln2 st' (u, P) vs = Ok v /\ isem (u, P) vs = Ok v).
Proof.
  intros HP HSup [V R] E.
  assert (Hi : In i (top_layers m)) by (destruct HP; subst P; apply HSup).
  assert (HA : exists o, nth_error st0 i = Some o /\ act_ok o /\ (P = KQuant i -> identity_fn o /\ l_relu (o_layer o) = false)).
  { destruct HP; subst P; unfold supported in HSup; cbn [snd] in HSup; destruct HSup as [_ [o Ho]]; exists o; [split; [apply Ho|split; [apply Ho|discriminate]]|].
    destruct Ho as [A [B [C D]]]. auto. }
  destruct HA as [o [Ho [HA HQ]]]. destruct (Htop i Hi) as [o_ [o1 [o' [Ho_ [H1 [H' [T1 [T' [Hr1 [Hr' HC]]]]]]]]]]. assert (o_ = o) by congruence. subst o_.
  specialize (HC (twin_act _ _ T1 HA)). destruct HC as [HC HRg].
  pose proof (step_rel st1 V s i vs v s' HO1 R E) as [o1_ [xs [H1_ [Hsz [Hz [Ev R']]]]]]. assert (o1_ = o1) by congruence. subst o1_.
  split; [eexists; exact R'|]. split.
  { intros I W RW i' g w Hi' Hg Hw. pose proof (step_rel st1 W s i vs v s' HO1 RW E) as [o1_ [xs_ [H1__ [_ [_ [_ RW']]]]]].
    eapply (I _ RW'); [exact Hi'|exact Hg|]. left. exact Hw. }
  intros I. assert (O1 : obj_ok o1) by (rewrite Forall_forall in HO1; apply HO1; eapply nth_error_In, H1).
  assert (O' : obj_ok o') by (rewrite Forall_forall in HO'; apply HO'; eapply nth_error_In, H').
  assert (RD : ready o') by (split; [|split]; assumption).
  pose proof T' as [[mn' [mx' EL]] [EA EI]].
  assert (Hsz' : sized_all (o_ins o') vs = true) by (rewrite EI; assumption).
  assert (EP : psem pw ln2 st' (u, P) vs = Ok v).
  { assert (CE : call_layer pw ln2 (u, P) vs st' = call_obj pw ln2 i vs st') by (destruct HP; subst P; reflexivity).
    unfold psem. rewrite CE, (obj_call pw ln2 st' i vs o' H' O' Hr'), Hsz', Hz. cbn [rbind fst]. f_equal. rewrite Ev. apply map_ext. intros x. apply twin_yout, T'. }
  split; [exact EP|].
  assert (IR : Forall (fun x => in_range (l_paq (o_layer o')) (l_out (o_layer o')) (ysamp pw ln2 (o_layer o') x)) xs).
  { apply Forall_forall. intros x Hx e He. rewrite (twin_ysamp _ _ _ T').
    assert (EO : l_out (o_layer o') = l_out (o_layer o1)) by (rewrite EL; reflexivity).
    assert (EG : group_of (l_paq (o_layer o')) (l_out (o_layer o')) e = e mod ngroups (l_paq (o_layer o1))).
    { destruct O1 as [L1 [L2 _]]. destruct L1 as [_ [L1 _]]. destruct (recordable_facts _ _ L2 L1) as [_ [_ [_ HG]]]. rewrite <- HG by (rewrite <- EO; exact He). rewrite EL. reflexivity. }
    rewrite EO in He. rewrite EG. set (g := e mod ngroups (l_paq (o_layer o1))).
    assert (Ng : 0 < ngroups (l_paq (o_layer o1))). { destruct O1 as [L1 [L2 _]]. destruct L1 as [_ [L1 _]]. destruct (recordable_facts _ _ L2 L1) as [_ [H _]]. exact H. }
    assert (Hg : g < ngroups (l_paq (o_layer o1))) by (apply Nat.mod_upper_bound; lia).
    assert (IG : in_group (ngroups (l_paq (o_layer o1))) g (ysamp pw ln2 (o_layer o1) x) (nth e (ysamp pw ln2 (o_layer o1) x) (qz 0))).
    { apply in_group_iff'; [lia|assumption|]. exists e. split; [|reflexivity]. apply nth_err. rewrite ysamp_length. exact He. }
    assert (I2 : inr st2 i g (nth e (ysamp pw ln2 (o_layer o1) x) (qz 0))).
    { apply (I _ R' i g); [exact Hi|exists o1; auto|]. right. split; [reflexivity|]. exists x. auto. }
    destruct (HRg g _ x Hg IG I2) as [o'_ [mn [mx [H'_ [[A B] [C D]]]]]]. assert (o'_ = o') by congruence. subst o'_. eauto 8. }
  assert (EY : map (yout pw ln2 (o_layer o')) xs = v) by (rewrite Ev; apply map_ext; intros x; apply twin_yout, T').
  destruct HP; subst P.
  - destruct (kh_proxy pw ln2 S0 st' HS strict u i o' vs xs H' RD (fun H => Hsteady H i o' Hi H') (twin_act _ _ T' (twin_act _ _ T1 HA)) Hsz' Hz IR) as [p [EPX EV]]. rewrite EY in EV.
    eapply isem_ok_model; eassumption.
  - destruct (HQ eq_refl) as [Hid Hrel].
    assert (Hrel' : l_relu (o_layer o') = false). { rewrite EL. destruct T1 as [[a [b E1]] _]. cbn. rewrite E1. exact Hrel. }
    destruct (kquant_proxy pw ln2 S0 st' HS strict u i o' vs xs H' RD (fun H => Hsteady H i o' Hi H') (twin_id _ _ T' (twin_id _ _ T1 Hid)) Hrel' Hsz' Hz IR) as [q [EPX EV]]. rewrite EY in EV.
    eapply isem_ok_layer; eassumption.
Qed.

Lemma guard_supported x : supported st0 m x -> guard_leaf (call_layer pw ln2) hsem isem Fwd Inv x.
Proof.
  intros HSup vs s v s' HF E. destruct x as [u k].
  assert (N : s' = s -> psem pw ln2 st' (u, k) vs = Ok v -> (promise (u, k) vs = true -> isem (u, k) vs = Ok v) ->
    Fwd s' /\ (Inv s' -> Inv s) /\ (Inv s' -> forall v2, hsem (u, k) vs = Ok v2 -> v2 = v /\ isem (u, k) vs = Ok v)).
  { intros -> EP HI. split; [assumption|]. split; [auto|]. intros _ v2 E2. unfold hsem in E2. destruct (promise (u, k) vs); [|discriminate]. split; [congruence|auto]. }
  assert (O : forall i, (k = KH i \/ k = KQuant i) ->
    Fwd s' /\ (Inv s' -> Inv s) /\ (Inv s' -> forall v2, hsem (u, k) vs = Ok v2 -> v2 = v /\ isem (u, k) vs = Ok v)).
  { intros i HK. assert (EC : call_obj pw ln2 i vs s = Ok (v, s')) by (destruct HK; subst k; exact E).
    destruct (guard_obj u i k vs s v s' HK HSup HF EC) as [A [B C]]. split; [assumption|]. split; [assumption|]. intros I v2 E2. destruct (C I) as [EP EI].
    unfold hsem in E2. destruct (promise _ _); [|discriminate]. split; [congruence|assumption]. }
  destruct k as [i|i|c out|g|p| |g|q out|]; try (apply (O i); auto; fail); unfold call_layer in E; cbn [snd] in E.
  - destruct (one vs) as [b|] eqn:E1; [|discriminate]. cbn [rbind] in E. destruct (sized out b) eqn:Es; [|discriminate]. injection E as <- <-.
    assert (EP : psem pw ln2 st' (u, KSig c out) vs = Ok b) by (unfold psem, call_layer; cbn [snd]; rewrite E1; cbn [rbind]; rewrite Es; reflexivity).
    apply N; [reflexivity|exact EP|]. intros HP. eapply isem_ok_layer; [exact HS|reflexivity|exact EP|]. eapply ksig_proxy; try eassumption. 
  - destruct (zip_samples vs) as [xs|] eqn:Ez; [|discriminate]. cbn [rbind] in E. injection E as <- <-.
    assert (EP : forall w, psem pw ln2 st' (w, KKeras g) vs = Ok (map g xs)) by (intros; unfold psem, call_layer; cbn [snd]; rewrite Ez; reflexivity).
    apply N; [reflexivity|exact (EP 0)|]. intros _. eapply isem_ok_layer; [exact HS|reflexivity|exact (EP 0)|apply EP].
  - destruct (one vs) as [b|] eqn:E1; [|discriminate]. cbn [rbind] in E. injection E as <- <-.
    assert (EP : forall w p', psem pw ln2 st' (w, KDrop p') vs = Ok b) by (intros; unfold psem, call_layer; cbn [snd]; rewrite E1; reflexivity).
    apply N; [reflexivity|apply EP|]. intros _. destruct p.
    + eapply isem_ok_layer; [exact HS|reflexivity|apply EP|apply EP].
    + eapply isem_ok_none; [exact HS|reflexivity|apply EP|]. apply one_spec, E1.
  - destruct (one vs) as [b|] eqn:E1; [|discriminate]. cbn [rbind] in E. injection E as <- <-.
    assert (EP : psem pw ln2 st' (u, KLin) vs = Ok b) by (unfold psem, call_layer; cbn [snd]; rewrite E1; reflexivity).
    apply N; [reflexivity|exact EP|]. intros _. eapply isem_ok_none; [exact HS|reflexivity|exact EP|]. apply one_spec, E1.
  - destruct (zip_samples vs) as [xs|] eqn:Ez; [|discriminate]. cbn [rbind] in E. injection E as <- <-.
    assert (EP : psem pw ln2 st' (u, KKeras g) vs = Ok (map g xs)) by (unfold psem, call_layer; cbn [snd]; rewrite Ez; reflexivity).
    apply N; [reflexivity|exact EP|]. intros _. rewrite isem_plain by (exact HS || exact I). exact EP.
  - destruct HSup.
  - destruct (one vs) as [b|] eqn:E1; [|discriminate]. cbn [rbind] in E. injection E as <- <-.
    assert (EP : psem pw ln2 st' (u, KRelu) vs = Ok (map (map relu) b)) by (unfold psem, call_layer; cbn [snd]; rewrite E1; reflexivity).
    apply N; [reflexivity|exact EP|]. intros _. rewrite isem_plain by (exact HS || exact I). exact EP.
Qed.
End G.

Section Main.
Variables (pw : Qc -> Qc) (ln2 : Qc) (eb : store -> nat -> result Qc) (m : klayer layer) (n : nat) (ds : list (list sample)) (bsz : nat) (c : Qc)
  (st st' : store) (bops : Qc) (rs : list (list (list sample))).
Hypothesis HO : Forall obj_ok st.
Hypothesis HL : leaves (supported st m) m.
Hypothesis HD : dataset n ds.
Hypothesis Hn : 0 < n.
Hypothesis Hb : 0 < bsz.
Hypothesis Hc : (qz 1 <= c)%Qc.
Hypothesis ET : trace_minmax pw ln2 eb m ds bsz true c false st = Ok (bops, rs, st').
Hypothesis HB : forall i o', In i (top_layers m) -> nth_error st' i = Some o' -> in_bounds (l_paq (o_layer o')).

Lemma HL' : leaves hgq_layer m.
Proof. eapply leaves_impl; [|exact HL]. intros [u k] H. destruct k; exact I || exact H. Qed.

Definition noV : nat -> nat -> Qc -> Prop := fun _ _ _ => False.
Definition samples_of : list (list sample) := map (sample_of ds) (seq 0 n).

Lemma calibration : exists st1 st2, Forall obj_ok st1 /\ Forall (runs pw ln2 st1 m) samples_of /\ rel st1 (vall pw ln2 st1 m noV samples_of) st2 /\
  forall i, In i (top_layers m) -> exists o o1 o', nth_error st i = Some o /\ nth_error st1 i = Some o1 /\ nth_error st' i = Some o' /\
  twin o o1 /\ twin o1 o' /\ o_record o1 = true /\ o_record o' = false /\ fresh_regs (l_paq (o_layer o1)) /\
  (act_ok o1 -> calibrated (l_paq (o_layer o')) /\
   forall g v xs, g < ngroups (l_paq (o_layer o1)) -> in_group (ngroups (l_paq (o_layer o1))) g (ysamp pw ln2 (o_layer o1) xs) v -> inr st2 i g v -> inr st' i g v).
Proof.
  destruct (trace_steps pw ln2 eb m n ds bsz c st bops rs st' HO ET HD HL' Hb) as [st1 [st2 [O1 [EF [O2 TS]]]]].
  exists st1, st2. split; [assumption|].
  pose proof (feed_spec pw ln2 st1 m n ds bsz st1 noV O1 HL' HD Hb (rel_refl st1 noV (fun _ _ _ H => H))) as FS. rewrite EF in FS.
  destruct FS as [HR [RV _]]. split; [exact HR|]. split; [exact RV|]. intros i Hi.
  destruct (TS i Hi) as [o [o1 [o2 [o3 [o4 [o' [E0 [E1 [T1 [Hr1 [Hf [E2 [H3 [H4 [E' [EL [EA [EI Hr']]]]]]]]]]]]]]]]]].
  destruct RV as [_ RR]. destruct (RR i o1 E1) as [o2_ [E2_ R2]]. assert (o2_ = o2) by congruence. subst o2_.
  pose proof (twin_rel _ _ _ R2) as T2.
  assert (Ok1 : obj_ok o1) by (rewrite Forall_forall in O1; apply O1; eapply nth_error_In, E1).
  assert (Ok2 : obj_ok o2) by (rewrite Forall_forall in O2; apply O2; eapply nth_error_In, E2).
  exists o, o1, o'. repeat (split; [assumption|]).
  assert (T14 : twin o1 o4 /\ (act_ok o1 -> obj_ok o4)).
  { split.
    - eapply twin_trans; [exact T2|]. destruct H3 as [->|H3].
      + apply twin_sbr. apply (fix_spec o2 o4 Ok2 H4).
      + destruct (cover_ok pw ln2 c o2 o3 Ok2 H3) as [Ok3 S3]. eapply twin_trans; [apply twin_sbr, S3|]. apply twin_sbr. apply (fix_spec o3 o4 Ok3 H4).
    - intros HA. apply (transfer pw ln2 c o2 o3 o4 Ok2 Hc (twin_act _ _ T2 HA) H3 H4). }
  destruct T14 as [T14 _].
  split. { destruct T14 as [[a [b X]] [Y Z]]. split; [exists a, b; congruence|split; congruence]. }
  repeat (split; [assumption|]). intros HA.
  pose proof (twin_act _ _ T2 HA) as HA2.
  destruct (transfer pw ln2 c o2 o3 o4 Ok2 Hc HA2 H3 H4) as [T24 [_ TR]].
  assert (NG : ngroups (l_paq (o_layer o2)) = ngroups (l_paq (o_layer o1))) by (destruct T2 as [[a [b X]] _]; rewrite X; reflexivity).
  assert (FB : forall g r, frac_bits (l_paq (o_layer o2)) g r <-> frac_bits (l_paq (o_layer o1)) g r) by (destruct T2 as [[a [b X]] _]; rewrite X; reflexivity).
  assert (FB4 : forall g r, frac_bits (l_paq (o_layer o')) g r <-> frac_bits (l_paq (o_layer o1)) g r) by (destruct T14 as [[a [b X]] _]; rewrite EL, X; reflexivity).
  assert (A2 : o_act o2 = o_act o1) by apply T2.
  assert (NE : forall g, g < ngroups (l_paq (o_layer o1)) -> exists v, vall pw ln2 st1 m noV samples_of i g v).
  { intros g Hg. rewrite Forall_forall in HR. set (s := sample_of ds 0). assert (Hs : In s samples_of) by (apply in_map, in_seq; lia).
    destruct (vis_facts pw ln2 st1 m s (HR s Hs)) as [HLg HTp]. destruct (HTp i Hi) as [y Hy]. destruct (HLg i y Hy) as [o1_ [xs [E1_ ->]]]. assert (o1_ = o1) by congruence. subst o1_.
    exists (nth g (ysamp pw ln2 (o_layer o1) xs) (qz 0)). right. exists s, (ysamp pw ln2 (o_layer o1) xs). split; [assumption|]. split; [assumption|]. exists o1. split; [assumption|].
    exists 0. cbn [Nat.mul Nat.add]. apply nth_err. rewrite ysamp_length.
    destruct Ok1 as [L1 [L2 _]]. destruct L1 as [_ [L1 _]]. destruct (recordable_facts _ _ L2 L1) as [_ [_ [[K HK] _]]]. rewrite HK in *. destruct K; [cbn in L1; lia|]. cbn [Nat.mul]. lia. }
  assert (VV : forall g v r, g < ngroups (l_paq (o_layer o1)) -> frac_bits (l_paq (o_layer o1)) g r -> vall pw ln2 st1 m noV samples_of i g v -> on_grid r v /\ abound (o_act o1) v).
  { intros g v r Hg Hr [[]|[s [y [Hs [Hy [o1_ [E1_ Hgv]]]]]]]. assert (o1_ = o1) by congruence. subst o1_. rewrite Forall_forall in HR.
    destruct (vis_facts pw ln2 st1 m s (HR s Hs)) as [HLg _]. destruct (HLg i y Hy) as [o1_ [xs [E1_' ->]]]. assert (o1_ = o1) by congruence. subst o1_.
    eapply visit_value; eassumption. }
  assert (RG : forall g, g < ngroups (l_paq (o_layer o1)) -> exists r mn mx mn' mx', frac_bits (l_paq (o_layer o1)) g r /\ holds_range (l_paq (o_layer o2)) g mn mx /\
    holds_range (l_paq (o_layer o')) g mn' mx' /\ on_grid r mn' /\ on_grid r mx' /\ (mn' <= mx')%Qc /\
    forall v, abound (o_act o1) v -> (mn <= v)%Qc -> (v <= mx)%Qc -> (mn' <= v)%Qc /\ (v <= mx')%Qc).
  { intros g Hg. destruct (regs_of o1 (vall pw ln2 st1 m noV samples_of i) o2 g Hr1 Hf R2 Hg (NE g Hg)) as [mn [mx [HH [Vn [Vx Hall]]]]].
    pose proof (nearest_even_ex (nth g (data (q_fbw (l_paq (o_layer o1)))) (qz 0))) as Hr. set (r := qround_even (nth g (data (q_fbw (l_paq (o_layer o1)))) (qz 0))) in *.
    change (frac_bits (l_paq (o_layer o1)) g r) in Hr. destruct (VV g mn r Hg Hr Vn) as [G1 B1]. destruct (VV g mx r Hg Hr Vx) as [G2 B2].
    destruct (TR g r mn mx) as [mn' [mx' [H1 [H2 [H3' [H5 H6]]]]]]; try (rewrite NG; assumption); try (rewrite A2; assumption); try assumption; [apply FB, Hr|apply (Hall mx Vx)|].
    exists r, mn, mx, mn', mx'. rewrite A2 in H6. rewrite EL. auto 10. }
  split.
  - intros g Hg. assert (Hg1 : g < ngroups (l_paq (o_layer o1))). { rewrite EL in Hg. destruct T14 as [[a [b X]] _]. rewrite X in Hg. exact Hg. }
    destruct (RG g Hg1) as [r [mn [mx [mn' [mx' [Hr [_ [H1 [H2 [H3' [H5 _]]]]]]]]]]]. exists r, mn', mx'. pose proof (proj2 (FB4 g r) Hr) as Hr4.
    destruct (HB i o' Hi E' g Hg r mn' mx' Hr4 H1) as [X1 [X2 X3]]. destruct H1. auto 12.
  - intros g v xs Hg Hv [o2_ [a [b [E2_2 [Hab [V1 V2]]]]]]. assert (o2_ = o2) by congruence. subst o2_.
    destruct (RG g Hg) as [r [mn [mx [mn' [mx' [Hr [Hh [H1 [_ [_ [_ H6]]]]]]]]]]]. assert (a = mn /\ b = mx) as [-> ->] by (destruct Hab, Hh; split; congruence).
    destruct (visit_value pw ln2 o1 g v xs r Ok1 HA Hg Hr Hv) as [_ AB]. destruct (H6 v AB V1 V2). exists o', mn', mx'. auto.
Qed.

Lemma quiet_leaves : leaves (on_object (quiet st')) m.
Proof.
  eapply leaves_impl; [|exact HL]. intros [u k] H. unfold on_object, supported in *. cbn [snd] in *. destruct k; try exact I;
    (destruct H as [Hi _]; eapply trace_quiet; eassumption).
Qed.

Lemma batch_cols B js : B = map (fun d => map (fun j => nth j d []) js) ds -> Forall (fun j => j < n) js ->
  forall j, j < length js -> cols B j = sample_of ds (nth j js 0) /\ In (cols B j) samples_of.
Proof.
  intros EB HJ j Hj. assert (E : cols B j = sample_of ds (nth j js 0)).
  { subst B. unfold cols, sample_of. rewrite map_map. apply map_ext. intros d. rewrite (nth_indep _ [] (nth 0 d [])) by (rewrite map_length; assumption). apply (map_nth (fun j => nth j d [])). }
  split; [exact E|]. rewrite E. apply in_map, in_seq. rewrite Forall_forall in HJ. specialize (HJ (nth j js 0) (nth_In _ _ Hj)). lia.
Qed.

(** The traced model runs on every batch of the dataset. *)
Lemma batch_runs B : batch_of n ds B -> exists r, run (call_layer pw ln2) m B st' = Ok r.
Proof.
  intros [js [Hjs [HJ EB]]]. destruct calibration as [st1 [st2 [O1 [HR [RV HT]]]]].
  pose proof (trace_ok pw ln2 eb m n ds bsz true c false st bops rs st' HO HL' HD Hb ET) as O'.
  assert (LB : Forall (fun b => length b = length js) B). { subst B. apply Forall_forall. intros b Hb'. apply in_map_iff in Hb'. destruct Hb' as [d [<- _]]. apply map_length. }
  assert (NB : 0 < length js) by (destruct js; [congruence|cbn; lia]).
  pose proof (sim_run pw ln2 st' m O' HL' (length js) B st' noV NB LB (rel_refl st' noV (fun _ _ _ H => H))) as SR.
  destruct (run (call_layer pw ln2) m B st') as [r|]; [eauto|]. exfalso. destruct SR as [j [Hj Ej]].
  destruct (batch_cols B js EB HJ j Hj) as [_ Hin]. rewrite Forall_forall in HR. destruct (HR _ Hin) as [r Er]. specialize (Ej []).
  rewrite (run_ext (sem1 pw ln2 st') (sem1 pw ln2 st1) m) in Ej; [congruence|]. eapply leaves_impl; [|exact HL]. intros [u k] Hx vs log.
  assert (K : forall i, In i (top_layers m) -> (k = KH i \/ k = KQuant i) -> sem1 pw ln2 st' (u, k) vs log = sem1 pw ln2 st1 (u, k) vs log).
  { intros i Hi HK. destruct (HT i Hi) as [o [o1 [o' [E0 [E1 [E' [T1 [T' _]]]]]]]]. pose proof T' as [[mn [mx EL]] [EA EI]].
    assert (G : rbind (get st' i) (fun o => if negb (sized_all (o_ins o) (map (fun s => [s]) vs)) then Raise
        else match vs with [] => Raise | _ => Ok (yout pw ln2 (o_layer o) vs, log ++ [(i, ysamp pw ln2 (o_layer o) vs)]) end) =
      rbind (get st1 i) (fun o => if negb (sized_all (o_ins o) (map (fun s => [s]) vs)) then Raise
        else match vs with [] => Raise | _ => Ok (yout pw ln2 (o_layer o) vs, log ++ [(i, ysamp pw ln2 (o_layer o) vs)]) end)).
    { unfold get. rewrite E', E1. cbn [rbind]. rewrite EI. destruct (negb _); [reflexivity|]. rewrite (twin_yout pw ln2 _ _ vs T'), (twin_ysamp pw ln2 _ _ vs T'). reflexivity. }
    destruct HK; subst k; exact G. }
  unfold supported in Hx. cbn [snd] in Hx. destruct k as [i|i|cf out|g|p| |g|q out|]; try reflexivity; (apply (K i); [apply Hx|auto]).
Qed.

Lemma proxy_eval strict S0 : (strict = true -> forall i o', In i (top_layers m) -> nth_error st' i = Some o' -> steady o') ->
  S0 = "WRAP"%string \/ S0 = "SAT"%string -> forall B, batch_of n ds B -> promises_kept pw ln2 m B st' ->
  exists ys, eval (isem pw ln2 S0 st' strict) m B = Ok ys /\ leaves (fun x => exists lx, proxy_xf pw ln2 S0 st' (Some x) = Ok lx) m /\
    call_model pw ln2 m B st' = Ok (ys, st').
Proof.
  intros HSt HS B HBt HPk.
  destruct calibration as [st1 [st2 [O1 [HR [RV HT]]]]].
  pose proof (trace_ok pw ln2 eb m n ds bsz true c false st bops rs st' HO HL' HD Hb ET) as O'.
  (* the run on B from the start of tracing *)
  destruct HBt as [js [Hjs [HJ EB]]].
  assert (LB : Forall (fun b => length b = length js) B). { subst B. apply Forall_forall. intros b Hb'. apply in_map_iff in Hb'. destruct Hb' as [d [<- _]]. apply map_length. }
  assert (NB : 0 < length js) by (destruct js; [congruence|cbn; lia]).
  assert (CB : forall j, j < length js -> cols B j = sample_of ds (nth j js 0) /\ In (cols B j) samples_of).
  { intros j Hj. assert (E : cols B j = sample_of ds (nth j js 0)).
    { subst B. unfold cols, sample_of. rewrite map_map. apply map_ext. intros d. rewrite (nth_indep _ [] (nth 0 d [])) by (rewrite map_length; assumption). apply (map_nth (fun j => nth j d [])). }
    split; [exact E|]. rewrite E. apply in_map, in_seq. rewrite Forall_forall in HJ. specialize (HJ (nth j js 0) (nth_In _ _ Hj)). lia. }
  pose proof (sim_run pw ln2 st1 m O1 HL' (length js) B st1 noV NB LB (rel_refl st1 noV (fun _ _ _ H => H))) as SR.
  destruct (run (call_layer pw ln2) m B st1) as [[outs stB]|] eqn:ER.
  2: { destruct SR as [j [Hj Ej]]. destruct (CB j Hj) as [_ Hin]. rewrite Forall_forall in HR. destruct (HR _ Hin) as [r Er]. rewrite (Ej []) in Er. discriminate. }
  destruct SR as [_ [vis [Hvis RB]]].
  assert (IB : Inv m st1 st2 stB).
  { intros V RVB i g v Hi [o1 [E1 Hg]] Hv. destruct (HT i Hi) as [o [o1_ [o' [E0 [E1_ [E' [T1 [T' [Hr1 [Hr' [Hf _]]]]]]]]]]]. assert (o1_ = o1) by congruence. subst o1_.
    destruct RVB as [_ RVB]. destruct (RVB i o1 E1) as [oB [EoB Ra]]. destruct RB as [_ RB]. destruct (RB i o1 E1) as [oB_ [EoB_ Rb]]. assert (oB_ = oB) by congruence. subst oB_.
    destruct (regs_of o1 (V i) oB g Hr1 Hf Ra Hg (ex_intro _ v Hv)) as [a [b [[Ha Hb'] [_ [_ Hab]]]]]. specialize (Hab v Hv).
    destruct RV as [_ RV]. destruct (RV i o1 E1) as [o2 [E2 R2]].
    (* the registers of stB come from values met in the traced data *)
    assert (SUB : forall w, vadd st1 (length js) noV vis i g w -> vall pw ln2 st1 m noV samples_of i g w).
    { intros w [[]|[j [y [Hj [Hy Hgy]]]]]. right. destruct (CB j Hj) as [_ Hin]. exists (cols B j), y. split; [assumption|]. split; [|assumption].
      unfold vis1. rewrite (Hvis j [] Hj). exact Hy. }
    assert (NEB : exists w, vadd st1 (length js) noV vis i g w).
    { destruct Rb as [mn [mx [Eo [_ [_ [_ [_ RS]]]]]]]. destruct (RS g Hg) as [[e1 [Le Ee]] _]. destruct Le as [[N ->]|[w [[_ Hw] _]]]; [|eauto]. exfalso.
      subst oB. change (nth g (data mn) PosInf = Fin a) in Ha. rewrite Ha in Ee. destruct (Hf g) as [F1 _]. rewrite F1 in Ee. discriminate. }
    destruct (regs_of o1 _ oB g Hr1 Hf Rb Hg NEB) as [a' [b' [[Ha' Hb''] [Va [Vb _]]]]].
    assert (a' = a) by congruence. assert (b' = b) by congruence. subst a' b'.
    destruct NEB as [w0 Hw0]. destruct (regs_of o1 _ o2 g Hr1 Hf R2 Hg (ex_intro _ w0 (SUB w0 Hw0))) as [p [q [Hpq [_ [_ Hall]]]]].
    exists o2, p, q. split; [assumption|]. split; [assumption|]. pose proof (Hall a (SUB a Va)). pose proof (Hall b (SUB b Vb)). split; qlra. }
  assert (GL : leaves (guard_leaf (call_layer pw ln2) (hsem pw ln2 st') (isem pw ln2 S0 st' strict) (Fwd st1) (Inv m st1 st2)) m).
  { assert (HT0 : forall i, In i (top_layers m) -> exists o o1 o', nth_error st i = Some o /\ nth_error st1 i = Some o1 /\ nth_error st' i = Some o' /\
      twin o o1 /\ twin o1 o' /\ o_record o1 = true /\ o_record o' = false /\
      (act_ok o1 -> calibrated (l_paq (o_layer o')) /\
       forall g v xs, g < ngroups (l_paq (o_layer o1)) -> in_group (ngroups (l_paq (o_layer o1))) g (ysamp pw ln2 (o_layer o1) xs) v -> inr st2 i g v -> inr st' i g v)).
    { intros i Hi. destruct (HT i Hi) as (o & o1 & o' & E0 & E1 & E' & T1 & T' & R1 & R' & _ & C). exists o, o1, o'. auto 10. }
    eapply leaves_impl; [|exact HL]. intros x Hx. eapply guard_supported; eassumption. }
  destruct (run_guard (call_layer pw ln2) (hsem pw ln2 st') (isem pw ln2 S0 st' strict) (Fwd st1) (Inv m st1 st2) m GL B st1 outs stB
    (ex_intro _ noV (rel_refl st1 noV (fun _ _ _ H => H))) ER) as [_ [_ GC]]. specialize (GC IB).
  (* the promises *)
  assert (EH : exists o2, eval (hsem pw ln2 st') m B = Ok o2).
  { destruct HPk as [r Er]. rewrite (run_const (checked pw ln2) (hsem pw ln2 st') st') in Er.
    - destruct (eval _ _ _) as [o2|]; [eauto|discriminate].
    - eapply leaves_impl; [|exact quiet_leaves]. intros x Hx vs. unfold checked, hsem. destruct (promise x vs); [|reflexivity]. unfold psem.
      destruct (call_layer pw ln2 x vs st') as [[v s]|] eqn:Ec; [|reflexivity]. cbn [rbind fst]. rewrite (quiet_leaf pw ln2 x vs st' v s O' Hx Ec). reflexivity. }
  destruct EH as [o2 EH]. destruct (GC o2 EH) as [_ EI].
  exists outs. split; [exact EI|]. split.
  { eapply leaves_impl; [|exact HL]. intros [u k] Hx. unfold supported in Hx. cbn [snd] in Hx.
    destruct k as [i|i|cf out|g|[|]| |g|q out|]; cbn [proxy_xf]; eauto.
    - destruct Hx as [Hi [o [E0 HA]]]. destruct (HT i Hi) as [o_ [o1 [o' [E0_ [E1 [E' [T1 [T' [Hr1 [Hr' [Hf HC]]]]]]]]]]]. assert (o_ = o) by congruence. subst o_.
      destruct (HC (twin_act _ _ T1 HA)) as [HCal _]. assert (Ok' : obj_ok o') by (rewrite Forall_forall in O'; apply O'; eapply nth_error_In, E').
      destruct (obj_proxy pw ln2 S0 HS o' [] (conj Ok' (conj Hr' HCal)) (Forall_nil _)) as [p [Ep _]]. eexists. apply (px_kh pw ln2 S0 st' u i o' p E' Ep).
    - destruct Hx as [Hi [o [E0 [HA [Hid Hre]]]]]. destruct (HT i Hi) as [o_ [o1 [o' [E0_ [E1 [E' [T1 [T' [Hr1 [Hr' [Hf HC]]]]]]]]]]]. assert (o_ = o) by congruence. subst o_.
      destruct (HC (twin_act _ _ T1 HA)) as [HCal _]. assert (Ok' : obj_ok o') by (rewrite Forall_forall in O'; apply O'; eapply nth_error_In, E').
      destruct (obj_proxy pw ln2 S0 HS o' [] (conj Ok' (conj Hr' HCal)) (Forall_nil _)) as [p [Ep _]]. destruct (proxy_shape pw ln2 S0 _ _ (proj1 Ok') Ep) as [_ [_ [Pc _]]].
      assert (Hre' : l_relu (o_layer o') = false). { destruct T' as [[a [b X]] _]. destruct T1 as [[a' [b' X']] _]. rewrite X. cbn. rewrite X'. exact Hre. }
      destruct (p_chain p) as [q|q1 q2]; [|destruct Pc; congruence]. destruct Pc as [Pq _]. unfold get. rewrite E'. cbn [rbind]. rewrite Pq. cbn [rbind]. eauto. }
  unfold call_model. rewrite (run_const (call_layer pw ln2) (psem pw ln2 st') st').
  - rewrite (eval_mono (isem pw ln2 S0 st' strict) (psem pw ln2 st') m) with (outs := outs); [reflexivity| |exact EI].
    eapply leaves_impl; [|exact HL]. intros x _ vs v Ev. eapply gsem_psem, isem_ps, Ev.
  - eapply leaves_impl; [|exact quiet_leaves]. intros x Hx vs. unfold psem. destruct (call_layer pw ln2 x vs st') as [[v s0]|] eqn:Ec; [|reflexivity].
    cbn [rbind fst]. rewrite (quiet_leaf pw ln2 x vs st' v s0 O' Hx Ec). reflexivity.
Qed.

Lemma proxy_model_gen strict S0 : (strict = true -> forall i o', In i (top_layers m) -> nth_error st' i = Some o' -> steady o') ->
  S0 = "WRAP"%string \/ S0 = "SAT"%string -> single m -> (forall x, m <> Leaf x) -> forall fuel names B,
  depth m + 2 <= fuel -> batch_of n ds B -> promises_kept pw ln2 m B st' ->
  exists pm ns s ys, convert_model (fun x => fst x) (proxy_xf pw ln2 S0 st') fuel m names = Ok (pm, ns, s) /\ leaves proxy_layer pm /\
    call_model pw ln2 m B st' = Ok (ys, st') /\ eval (gsem pw ln2 st' strict) pm B = Ok ys /\ forall st'', call_model pw ln2 pm B st'' = Ok (ys, st'').
Proof.
  intros HSt HS Hsg HNL fuel names B Hfu HBt HPk.
  destruct (proxy_eval strict S0 HSt HS B HBt HPk) as [outs [EI [HX EC]]].
  destruct (conversion pw ln2 S0 st' HS strict fuel m names B outs Hsg HNL HX Hfu EI) as [pm [ns [s [C1 [C2 [CG C3]]]]]].
  exists pm, ns, s, outs. auto.
Qed.
End Main.
