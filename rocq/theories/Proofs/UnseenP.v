(** Data the model was not calibrated on (C93). *)
From Coq Require Import ZArith Qcanon List Bool String Lia.
From Verif Require Import Base.Num Base.NumFacts Base.Tensor Model.FixedPoint Model.Quantizer Model.Layers Model.Graph
  Model.Convert Model.Trace Spec.Fixed Spec.Quant Spec.History Spec.Layer Spec.Graph Spec.Trace Spec.Steady Spec.Calib Spec.Unseen Proofs.TensorP Proofs.QuantizerP
  Proofs.BitsP Proofs.CallP Proofs.SampleP Proofs.LayersP Proofs.ConvertP
  Proofs.TraceP Proofs.FeedP Proofs.TraceMinmaxP Proofs.CoverP Proofs.TraceMoreP Proofs.ProxyModelP Proofs.ProxyLayerP Proofs.ProxyConvP Proofs.ProxyTraceP Proofs.ProxyGuardP
  Proofs.CalibP.
Import ListNotations.
Local Open Scope nat_scope.

Lemma ext_min_keep e r : ext_min e r = r -> ext_le r e.
Proof. intros H. rewrite <- H. apply ext_min_l. Qed.
Lemma ext_max_keep e r : ext_max e r = r -> ext_le e r.
Proof. intros H. rewrite <- H at 1. rewrite H. rewrite <- H. apply ext_max_l. Qed.
Lemma ext_le_anti a b : ext_le a b -> ext_le b a -> a = b.
Proof. destruct a, b; cbn; try tauto. intros H K. f_equal. apply Qcle_antisym; assumption. Qed.
Lemma keep_ext_min e r : ext_le r e -> ext_min e r = r.
Proof. intros H. apply ext_le_anti; [apply ext_min_r|]. apply ext_min_glb; [assumption|apply ext_le_refl]. Qed.
Lemma keep_ext_max e r : ext_le e r -> ext_max e r = r.
Proof. intros H. apply ext_le_anti; [|apply ext_max_r]. apply ext_max_lub; [assumption|apply ext_le_refl]. Qed.

(** Value v is inside the registers of group g of object i. *)
Definition keeps (st : store) (i g : nat) (v : Qc) : Prop :=
  forall o, nth_error st i = Some o -> ext_le (nth g (data (q_min (l_paq (o_layer o)))) PosInf) (Fin v) /\ ext_le (Fin v) (nth g (data (q_max (l_paq (o_layer o)))) NegInf).

Lemma listening_nth st i : nth_error (listening st) i = option_map (fun o => with_record o true) (nth_error st i).
Proof. unfold listening. apply nth_error_map. Qed.
Lemma listening_ok st : Forall obj_ok st -> Forall obj_ok (listening st).
Proof. intros H. apply Forall_forall. intros o Ho. apply in_map_iff in Ho. destruct Ho as [p [<- Hp]]. rewrite Forall_forall in H. apply (H p Hp). Qed.

Lemma obj_rel_stays o (V : nat -> Qc -> Prop) : o_record o = true -> obj_rel o V o -> forall g v, g < ngroups (l_paq (o_layer o)) -> V g v ->
  ext_le (nth g (data (q_min (l_paq (o_layer o)))) PosInf) (Fin v) /\ ext_le (Fin v) (nth g (data (q_max (l_paq (o_layer o)))) NegInf).
Proof.
  intros Hr [mn [mx [E [_ [_ [_ [_ RS]]]]]]] g v Hg Hv.
  assert (E1 : q_min (l_paq (o_layer o)) = mn) by (apply (f_equal (fun o => q_min (l_paq (o_layer o)))) in E; exact E).
  assert (E2 : q_max (l_paq (o_layer o)) = mx) by (apply (f_equal (fun o => q_max (l_paq (o_layer o)))) in E; exact E).
  destruct (RS g Hg) as [[e1 [L1 H1]] [e2 [L2 H2]]]. rewrite E1 in H1 |- *. rewrite E2 in H2 |- *. symmetry in H1, H2. split.
  - apply ext_min_keep in H1. eapply ext_le_trans; [exact H1|]. destruct L1 as [[N _]|[w [_ [-> L]]]]; [destruct (N v); auto|]. cbn. apply L. auto.
  - apply ext_max_keep in H2. eapply ext_le_trans; [|exact H2]. destruct L2 as [[N _]|[w [_ [-> L]]]]; [destruct (N v); auto|]. cbn. apply L. auto.
Qed.
Lemma stays_obj_rel o (V : nat -> Qc -> Prop) o' : obj_ok o -> (forall g v, g < ngroups (l_paq (o_layer o)) -> V g v ->
    ext_le (nth g (data (q_min (l_paq (o_layer o)))) PosInf) (Fin v) /\ ext_le (Fin v) (nth g (data (q_max (l_paq (o_layer o)))) NegInf)) ->
  obj_rel o V o' -> o' = o.
Proof.
  intros HO HV [mn [mx [-> [A [B [C [D RS]]]]]]]. destruct (obj_ok_len o HO) as [N1 N2].
  assert (mn = q_min (l_paq (o_layer o))).
  { apply tensor_eq; [assumption|]. apply (list_nth_ext PosInf); [assumption|]. intros g Hg. rewrite B, N1 in Hg. destruct (RS g Hg) as [[e [L ->]] _]. apply keep_ext_min.
    destruct L as [[_ ->]|[w [[_ Hw] [-> _]]]]; [destruct (nth _ _ _); exact I|]. apply (HV g w Hg Hw). }
  assert (mx = q_max (l_paq (o_layer o))).
  { apply tensor_eq; [assumption|]. apply (list_nth_ext NegInf); [assumption|]. intros g Hg. rewrite D, N2 in Hg. destruct (RS g Hg) as [_ [e [L ->]]]. apply keep_ext_max.
    destruct L as [[_ ->]|[w [[_ Hw] [-> _]]]]; [exact I|]. apply (HV g w Hg Hw). }
  subst mn mx. apply obj_mm_id.
Qed.

Section U.
Variables (pw : Qc -> Qc) (ln2 : Qc).

Definition noV : nat -> nat -> Qc -> Prop := fun _ _ _ => False.

Lemma inside_iff st m B nb : Forall obj_ok st -> leaves hgq_layer m -> Forall (fun b => length b = nb) B -> 0 < nb ->
  inside pw ln2 m B st <-> forall j, j < nb -> runs pw ln2 (listening st) m (cols B j) /\
    forall i y g v, In (i, y) (vis1 pw ln2 (listening st) m (cols B j)) -> grp (listening st) i g y v ->
      (exists o, nth_error st i = Some o /\ g < ngroups (l_paq (o_layer o))) -> keeps st i g v.
Proof.
  intros HO HL LB NB. pose proof (listening_ok st HO) as HO1.
  pose proof (sim_run pw ln2 (listening st) m HO1 HL nb B (listening st) noV NB LB (rel_refl _ noV (fun _ _ _ H => H))) as SR. unfold inside, call_model. split.
  - intros [ys E]. rewrite E in SR. destruct SR as [_ [vis [Hvis [_ R]]]]. intros j Hj. pose proof (Hvis j [] Hj) as Ej. split; [eexists; exact Ej|].
    intros i y g v Hy Hg [o [Eo Hgo]] o_ Eo_. assert (o_ = o) by congruence. subst o_.
    assert (E1 : nth_error (listening st) i = Some (with_record o true)) by (rewrite listening_nth, Eo; reflexivity).
    destruct (R i _ E1) as [oB [EB RB]]. assert (oB = with_record o true) by congruence. subst oB.
    apply (obj_rel_stays (with_record o true) _ eq_refl RB g v Hgo). right. exists j, y. split; [assumption|]. split; [|assumption]. unfold vis1 in Hy. rewrite Ej in Hy. exact Hy.
  - intros H. destruct (run (call_layer pw ln2) m B (listening st)) as [[ys stB]|].
    2: { destruct SR as [j [Hj Ej]]. destruct (H j Hj) as [[r Er] _]. rewrite (Ej []) in Er. discriminate. }
    exists ys. f_equal. f_equal. destruct SR as [_ [vis [Hvis [RL RR]]]]. apply nth_error_ext; [assumption|]. intros i x y Ex Ey.
    destruct (RR i y Ey) as [x_ [Ex_ Rx]]. assert (x_ = x) by congruence. subst x_.
    rewrite listening_nth in Ey. destruct (nth_error st i) as [o|] eqn:Eo; [|discriminate]. injection Ey as <-.
    eapply stays_obj_rel; [| |exact Rx]; [rewrite Forall_forall in HO; apply (HO o); eapply nth_error_In, Eo|].
    intros g v Hg [[]|[j [y [Hj [Hy Hgr]]]]]. destruct (H j Hj) as [_ K].
    assert (KK : keeps st i g v) by (apply (K i y g v); [unfold vis1; rewrite (Hvis j [] Hj); exact Hy|assumption|exists o; auto]). exact (KK o Eo).
Qed.

(** ** Stores with the same layers *)
Definition same_calls (m : klayer layer) (s s' : store) : Prop := forall i o, nth_error s i = Some o -> exists o', nth_error s' i = Some o' /\ twin o o'.

Lemma same_sem1 m s s' : length s' = length s -> same_calls m s s' -> forall x vs log, sem1 pw ln2 s' x vs log = sem1 pw ln2 s x vs log.
Proof.
  intros HL H [u k] vs log.
  assert (K : forall i, rbind (get s' i) (fun o => if negb (sized_all (o_ins o) (map (fun s => [s]) vs)) then Raise
        else match vs with [] => Raise | _ => Ok (yout pw ln2 (o_layer o) vs, log ++ [(i, ysamp pw ln2 (o_layer o) vs)]) end) =
      rbind (get s i) (fun o => if negb (sized_all (o_ins o) (map (fun s => [s]) vs)) then Raise
        else match vs with [] => Raise | _ => Ok (yout pw ln2 (o_layer o) vs, log ++ [(i, ysamp pw ln2 (o_layer o) vs)]) end)).
  { intros i. unfold get. destruct (nth_error s i) as [o|] eqn:Eo.
    - destruct (H i o Eo) as [o' [-> T]]. cbn [rbind]. pose proof T as [_ [_ EI]]. rewrite EI. destruct (negb _); [reflexivity|].
      rewrite (twin_yout pw ln2 _ _ vs T), (twin_ysamp pw ln2 _ _ vs T). reflexivity.
    - rewrite (proj2 (nth_error_None s' i)); [reflexivity|]. rewrite HL. apply nth_error_None, Eo. }
  unfold sem1. cbn [snd]. destruct k; try reflexivity; apply K.
Qed.

Lemma inside_wider st st' m B nb : Forall obj_ok st -> Forall obj_ok st' -> leaves hgq_layer m -> Forall (fun b => length b = nb) B -> 0 < nb ->
  wider_store st st' -> inside pw ln2 m B st -> inside pw ln2 m B st'.
Proof.
  intros HO HO' HL LB NB [WL W] HI. apply (inside_iff st' m B nb HO' HL LB NB). pose proof (proj1 (inside_iff st m B nb HO HL LB NB) HI) as H. clear HI.
  assert (PAIR : forall i o, nth_error st i = Some o -> exists o', nth_error st' i = Some o' /\ wider_obj o o').
  { intros i o Eo. destruct (nth_error st' i) as [o'|] eqn:Eo'; [eauto|]. apply nth_error_None in Eo'. apply nth_error_lt in Eo. lia. }
  assert (TW : forall o o', wider_obj o o' -> twin o o').
  { intros o o' Hw. split; [apply wider_obj_regs, Hw|]. destruct Hw as [_ [A [B' _]]]. auto. }
  assert (SE : forall j, run (sem1 pw ln2 (listening st')) m (cols B j) [] = run (sem1 pw ln2 (listening st)) m (cols B j) []).
  { intros j. apply run_ext. eapply leaves_impl; [|exact HL]. intros x _ vs log. apply (same_sem1 m); [unfold listening; rewrite !map_length; assumption|].
    intros i o E. rewrite listening_nth in E |- *. destruct (nth_error st i) as [p|] eqn:Ep; [|discriminate]. injection E as <-. destruct (PAIR i p Ep) as [p' [-> Hw]].
    eexists. split; [reflexivity|]. destruct (TW _ _ Hw) as [A [A1 A2]]. split; [exact A|split; [exact A1|exact A2]]. }
  intros j Hj. destruct (H j Hj) as [R K]. split; [unfold runs; rewrite SE; exact R|].
  intros i y g v Hy Hg [o' [Eo' Hgo]] o'_ Eo'_. assert (o'_ = o') by congruence. subst o'_.
  assert (Ho : exists o, nth_error st i = Some o). { destruct (nth_error st i) eqn:E; [eauto|]. apply nth_error_None in E. apply nth_error_lt in Eo'. lia. }
  destruct Ho as [o Eo]. pose proof (W i o o' Eo Eo') as Hw. destruct Hw as [_ [_ [_ [_ [_ [_ [_ [[a [b Eq]] WR]]]]]]]].
  assert (NG : ngroups (l_paq (o_layer o')) = ngroups (l_paq (o_layer o))) by (unfold ngroups; rewrite Eq; reflexivity).
  destruct (K i y g v) with (o := o) as [K1 K2]; try assumption.
  - unfold vis1 in *. rewrite SE in Hy. exact Hy.
  - destruct Hg as [o1 [E1 Hin]]. exists (with_record o true). rewrite listening_nth, Eo. split; [reflexivity|]. rewrite listening_nth, Eo' in E1. injection E1 as <-. cbn [with_record o_layer] in *. rewrite <- NG. exact Hin.
  - exists o. split; [assumption|]. lia.
  - unfold ngroups in *. destruct (WR g ltac:(lia)) as [W1 W2]. split; eapply ext_le_trans; eassumption.
Qed.

(** ** cover_factor *)
Lemma cover_lo_anti c c' a b : (c <= c')%Qc -> (a <= b)%Qc -> (cover_lo c' a b <= cover_lo c a b)%Qc.
Proof.
  intros Hc Hab. unfold cover_lo. rewrite !half_div.
  assert (H : (qz 0 <= (b - a) * qhalf * (c' - c))%Qc) by (assert (qz 0 <= b - a)%Qc by qlra; assert (qz 0 <= c' - c)%Qc by qlra; assert (qz 0 <= qhalf)%Qc by qlra; qnra).
  assert (E : ((a + b) * qhalf - (b - a) * qhalf * c = ((a + b) * qhalf - (b - a) * qhalf * c') + (b - a) * qhalf * (c' - c))%Qc) by ring.
  rewrite E. revert H. generalize ((a + b) * qhalf - (b - a) * qhalf * c')%Qc, ((b - a) * qhalf * (c' - c))%Qc. intros u w Hw. qlra.
Qed.
Lemma cover_hi_more c c' a b : (c <= c')%Qc -> (a <= b)%Qc -> (cover_hi c a b <= cover_hi c' a b)%Qc.
Proof.
  intros Hc Hab. unfold cover_hi. rewrite !half_div.
  assert (H : (qz 0 <= (b - a) * qhalf * (c' - c))%Qc) by (assert (qz 0 <= b - a)%Qc by qlra; assert (qz 0 <= c' - c)%Qc by qlra; assert (qz 0 <= qhalf)%Qc by qlra; qnra).
  assert (E : ((a + b) * qhalf + (b - a) * qhalf * c' = ((a + b) * qhalf + (b - a) * qhalf * c) + (b - a) * qhalf * (c' - c))%Qc) by ring.
  rewrite E. revert H. generalize ((a + b) * qhalf + (b - a) * qhalf * c)%Qc, ((b - a) * qhalf * (c' - c))%Qc. intros u w Hw. qlra.
Qed.

Lemma cover_larger c c' o p p' : obj_ok o -> (c <= c')%Qc ->
  (forall g, g < ngroups (l_paq (o_layer o)) -> exists r a b, frac_bits (l_paq (o_layer o)) g r /\ holds_range (l_paq (o_layer o)) g a b /\ on_grid r a /\ on_grid r b /\ (a <= b)%Qc) ->
  cover_obj pw ln2 c o = Ok p -> cover_obj pw ln2 c' o = Ok p' -> wider_obj p p'.
Proof.
  intros HO Hc HR E E'. destruct (cover_finite pw ln2 c o p E) as [mn [mx [E1 E2]]].
  pose proof (cover_value pw ln2 c o mn mx HO E1 E2) as V. pose proof (cover_value pw ln2 c' o mn mx HO E1 E2) as V'. cbv zeta in V, V'.
  rewrite E in V. rewrite E' in V'. apply (f_equal (fun r => match r with Ok a => a | Raise => p end)) in V. apply (f_equal (fun r => match r with Ok a => a | Raise => p' end)) in V'. cbv beta iota in V, V'. subst p p'.
  unfold wider_obj, with_paq, with_layer. cbv zeta. cbn [o_record o_act o_ins o_layer l_op l_relu l_loc l_out l_paq]. repeat (split; [reflexivity|]).
  set (q := l_paq (o_layer o)) in *. apply wider_regs. intros g Hg. cbn [data]. rewrite !reg_vals_nth by assumption.
  destruct (finite_spec _ _ E1) as [_ [L1 V1]]. destruct (finite_spec _ _ E2) as [_ [L2 V2]].
  destruct (obj_ok_len o HO) as [N1 N2]. fold q in N1, N2. destruct (HR g Hg) as [r [a [b [Hr [[Ha Hb] [_ [_ Hab]]]]]]].
  rewrite (V1 g (qz 0)) in Ha by (rewrite N1; exact Hg). rewrite (V2 g (qz 0)) in Hb by (rewrite N2; exact Hg). injection Ha as Ha. injection Hb as Hb. rewrite Ha, Hb.
  pose proof (nearest_even_ex (nth g (data (q_fbw q)) (qz 0))) as NE. split; cbn [ext_le].
  - eapply quantized_mono; [apply (qval_quantized q _ _ _ NE)|apply (qval_quantized q _ _ _ NE)|]. apply cover_lo_anti; assumption.
  - eapply quantized_mono; [apply (qval_quantized q _ _ _ NE)|apply (qval_quantized q _ _ _ NE)|]. apply cover_hi_more; assumption.
Qed.

Lemma cover_step_larger c c' m s t t' : Forall obj_ok s -> (c <= c')%Qc ->
  (forall i, In i (top_layers m) -> exists o, nth_error s i = Some o /\ forall g, g < ngroups (l_paq (o_layer o)) ->
     exists r a b, frac_bits (l_paq (o_layer o)) g r /\ holds_range (l_paq (o_layer o)) g a b /\ on_grid r a /\ on_grid r b /\ (a <= b)%Qc) ->
  cover_step pw ln2 m c s = Ok t -> cover_step pw ln2 m c' s = Ok t' -> wider_store t t'.
Proof.
  intros HO Hc HR E E'. rewrite Forall_forall in HO.
  assert (ST : forall d u, cover_step pw ln2 m d s = Ok u -> length u = length s /\
    (forall i, In i (top_layers m) -> exists o p, nth_error s i = Some o /\ cover_obj pw ln2 d o = Ok p /\ nth_error u i = Some p) /\
    (forall i, ~ In i (top_layers m) -> nth_error u i = nth_error s i)).
  { intros d u Eu. unfold cover_step in Eu. destruct (qeqb_spec d (qz 1)) as [->|].
    - injection Eu as <-. split; [reflexivity|]. split; [|reflexivity]. intros i Hi. destruct (HR i Hi) as [o [Eo HG]]. exists o, o. split; [assumption|]. split; [|assumption].
      apply cover_one; [apply HO; eapply nth_error_In, Eo|]. intros g Hg. destruct (HG g Hg) as (r & a & b & H1 & H2 & H3 & H4 & _). exists r, a, b. auto.
    - destruct (qltb _ _); [|discriminate]. exact (each_spec _ _ (top_NoDup m) _ _ Eu). }
  destruct (ST c t E) as [L1 [A1 B1]]. destruct (ST c' t' E') as [L2 [A2 B2]]. split; [congruence|]. intros i p p' Ep Ep'.
  destruct (in_dec Nat.eq_dec i (top_layers m)) as [Hi|Hi].
  - destruct (A1 i Hi) as (o & p_ & Eo & C1 & Ep_). destruct (A2 i Hi) as (o_ & p'_ & Eo_ & C2 & Ep'_). assert (o_ = o) by congruence. assert (p_ = p) by congruence. assert (p'_ = p') by congruence. subst o_ p_ p'_.
    destruct (HR i Hi) as [o_ [Eo__ HG]]. assert (o_ = o) by congruence. subst o_. eapply cover_larger; try eassumption. apply HO. eapply nth_error_In, Eo.
  - rewrite (B1 i Hi) in Ep. rewrite (B2 i Hi) in Ep'. assert (p' = p) by congruence. subst p'. apply wider_obj_refl.
Qed.
Lemma cover_reaches w D : (qz 0 < w)%Qc -> forall c, (D / w <= c)%Qc -> (D <= w * c)%Qc.
Proof.
  intros Hw c H. assert (E : (D = w * (D / w))%Qc) by (field; intros X; rewrite X in Hw; qlra). rewrite E. revert H. generalize (D / w)%Qc. intros u H. qnra.
Qed.
Lemma cover_enough o g r a b v : obj_ok o -> g < ngroups (l_paq (o_layer o)) -> frac_bits (l_paq (o_layer o)) g r -> holds_range (l_paq (o_layer o)) g a b ->
  (a < b)%Qc \/ o_act o = ASoftmax -> on_grid r v -> abound (o_act o) v ->
  exists c0, forall c p p', (c0 <= c)%Qc -> cover_obj pw ln2 c o = Ok p -> fix_obj p = Ok p' -> exists x y, holds_range (l_paq (o_layer p')) g x y /\ (x <= v)%Qc /\ (v <= y)%Qc.
Proof.
  intros HO Hg Hr Hab Hd Gv Av. set (D := qmax ((a + b) * qhalf - v) (v - (a + b) * qhalf)). exists (D / ((b - a) * qhalf))%Qc. intros c p p' Hc E F.
  destruct (cover_finite pw ln2 c o p E) as [mn [mx [E1 E2]]]. pose proof (cover_value pw ln2 c o mn mx HO E1 E2) as V. cbv zeta in V.
  pose proof (cover_ok pw ln2 c o p HO E) as [OP [u [w SP]]].
  rewrite E in V. apply (f_equal (fun r => match r with Ok a => a | Raise => p end)) in V. cbv beta iota in V.
  destruct (finite_spec _ _ E1) as [_ [L1 V1]]. destruct (finite_spec _ _ E2) as [_ [L2 V2]]. destruct (obj_ok_len o HO) as [N1 N2]. destruct Hab as [Ha Hb].
  rewrite (V1 g (qz 0)) in Ha by (rewrite N1; exact Hg). rewrite (V2 g (qz 0)) in Hb by (rewrite N2; exact Hg). injection Ha as Ha. injection Hb as Hb.
  destruct (fix_spec p p' OP F) as [_ [_ FS]].
  assert (HP : exists x y, holds_range (l_paq (o_layer p)) g x y /\ ((a < b)%Qc -> (x <= v)%Qc /\ (v <= y)%Qc)).
  { eexists _, _. split.
    - rewrite V. unfold holds_range, with_paq, with_layer. cbn [o_layer l_paq with_minmax q_min q_max data]. rewrite !reg_vals_nth by assumption. split; reflexivity.
    - intros Hlt. rewrite Ha, Hb. set (q := l_paq (o_layer o)) in *.
      assert (R : (D <= (b - a) * qhalf * c)%Qc). { apply cover_reaches; [|exact Hc]. assert (qz 0 < b - a)%Qc by qlra. assert (qz 0 < qhalf)%Qc by (vm_compute; reflexivity). qnra. }
      assert (D1 : ((a + b) * qhalf - v <= D)%Qc) by (unfold D, qmax; destruct (qleb_spec ((a + b) * qhalf - v) (v - (a + b) * qhalf)); qlra).
      assert (D2 : (v - (a + b) * qhalf <= D)%Qc) by (unfold D, qmax; destruct (qleb_spec ((a + b) * qhalf - v) (v - (a + b) * qhalf)); qlra).
      assert (LO : (cover_lo c a b <= v)%Qc). { unfold cover_lo. rewrite !half_div. revert R D1. generalize ((b - a) * qhalf * c)%Qc, ((a + b) * qhalf)%Qc. intros. qlra. }
      assert (HI : (v <= cover_hi c a b)%Qc). { unfold cover_hi. rewrite !half_div. revert R D2. generalize ((b - a) * qhalf * c)%Qc, ((a + b) * qhalf)%Qc. intros. qlra. }
      pose proof (qval_quantized q (nth g (data (q_fbw q)) (qz 0)) v r Hr) as QV. pose proof (quantized_id _ _ _ _ QV Gv) as EV. rewrite EV in QV.
      split; [eapply quantized_mono; [apply (qval_quantized q _ _ _ Hr)|exact QV|exact LO]|eapply quantized_mono; [exact QV|apply (qval_quantized q _ _ _ Hr)|exact HI]]. }
  destruct HP as [x [y [HP K]]]. assert (EA : o_act p = o_act o) by (rewrite SP; reflexivity). assert (Hg' : g < length (data (q_fbw (l_paq (o_layer p))))) by (rewrite SP; exact Hg).
  specialize (FS g x y Hg' HP). rewrite EA in FS. destruct (o_act o); cbn [abound] in Av.
  - exists (qz 0), (qz 1). auto.
  - destruct Hd as [Hd|]; [|discriminate]. destruct (K Hd) as [K1 K2]. eexists _, _. split; [exact FS|]. split; [apply qmax_lub|apply qmin_glb]; tauto.
  - destruct Hd as [Hd|]; [|discriminate]. destruct (K Hd) as [K1 K2]. eexists _, _. split; [exact FS|]. change (- qz 1)%Qc with (qz (-1)). split; [apply qmax_lub|apply qmin_glb]; tauto.
  - destruct Hd as [Hd|]; [|discriminate]. eauto.
  - destruct Hd as [Hd|]; [|discriminate]. eauto.
Qed.

(** Finitely many requirements on the cover factor are met from some factor on. *)
Lemma all_from {A} (l : list A) (P : Qc -> A -> Prop) : (forall x, In x l -> exists c0, forall c, (c0 <= c)%Qc -> P c x) ->
  exists c0, forall c, (c0 <= c)%Qc -> forall x, In x l -> P c x.
Proof.
  induction l as [|a l IH]; intros H; [exists (qz 0); intros c _ x []|].
  destruct (H a (or_introl eq_refl)) as [c1 H1]. destruct (IH (fun x Hx => H x (or_intror Hx))) as [c2 H2]. exists (qmax c1 c2).
  intros c Hc. assert ((c1 <= c)%Qc /\ (c2 <= c)%Qc) as [C1 C2] by (unfold qmax in Hc; destruct (qleb_spec c1 c2); split; qlra).
  intros x [<-|Hx]; auto.
Qed.
End U.

Section Main.
Variables (pw : Qc -> Qc) (ln2 : Qc) (eb : store -> nat -> result Qc) (m : klayer layer) (n : nat) (ds : list (list sample)) (bsz : nat) (c : Qc)
  (st st' : store) (bops : Qc) (rs : list (list (list sample))).
Hypothesis HO : Forall obj_ok st.
Hypothesis HL : leaves (supported st m) m.
Hypothesis HD : dataset n ds.
Hypothesis Hn : 0 < n.
Hypothesis Hb : 0 < bsz.

Let HL' : leaves hgq_layer m.
Proof. eapply leaves_impl; [|exact HL]. intros [u k] H. destruct k; exact I || exact H. Qed.

Lemma top_act i o : In i (top_layers m) -> nth_error st i = Some o -> act_ok o.
Proof.
  intros Hi Eo. destruct m as [x|nin nodes outs] eqn:Em; [destruct Hi|]. rewrite <- Em in HL. cbn [top_layers] in Hi. apply nodup_In, in_flat_map in Hi. destruct Hi as [[k ins] [Hk Hi]].
  unfold node_hid in Hi. cbn [fst] in Hi. destruct k as [[u k]|]; [|destruct Hi]. assert (HX : supported st m (u, k)).
  { rewrite Em in HL at 2. inversion HL as [|? ? ? H]; subst. specialize (H _ _ Hk). inversion H; subst. assumption. }
  unfold supported in HX. cbn [snd] in *. destruct k as [j|j|? ?|?|?| |?|? ?|]; cbn [hid] in Hi; try destruct Hi as [<-|[]]; try destruct Hi; destruct HX as [_ [o_ [E_ HX]]]; assert (o_ = o) by congruence; subst o_; apply HX.
Qed.

Lemma visited_top st0 ins ys vis : run (sem1 pw ln2 st0) m ins [] = Ok (ys, vis) -> forall i y, In (i, y) vis -> In i (top_layers m).
Proof.
  intros E. apply (run_guard (sem1 pw ln2 st0) (fun _ _ => Raise) (fun _ _ => Raise) (fun log => forall i y, In (i, y) log -> In i (top_layers m)) (fun _ => False) m) in E; [apply E| |intros ? ? []].
  eapply leaves_impl; [|exact HL]. intros [u k] HX vs log v log' F E1. split; [|split; [tauto|intros []]].
  assert (O : forall i, In i (top_layers m) -> rbind (get st0 i) (fun o => if negb (sized_all (o_ins o) (map (fun s => [s]) vs)) then Raise
      else match vs with [] => Raise | _ => Ok (yout pw ln2 (o_layer o) vs, log ++ [(i, ysamp pw ln2 (o_layer o) vs)]) end) = Ok (v, log') ->
      forall i y, In (i, y) log' -> In i (top_layers m)).
  { intros i Hi Eo. apply rbind_ok in Eo. destruct Eo as [o [Eg Eo]]. destruct (negb _); [discriminate|]. destruct vs as [|s0 ins0]; [discriminate|].
    injection Eo as _ <-. intros i' y Hy. apply in_app_or in Hy. destruct Hy as [Hy|[Hy|[]]]; [eapply F, Hy|]. injection Hy as <- _. exact Hi. }
  unfold supported in HX. cbn [snd] in HX. unfold sem1 in E1. cbn [snd] in E1.
  destruct k as [i|i|? ?|?|?| |?|? ?|]; try (apply (O i); [apply HX|exact E1]); try discriminate;
    repeat match type of E1 with
      | rbind ?r _ = _ => destruct r; [cbn [rbind] in E1|discriminate]
      | (if ?b then _ else _) = _ => destruct b; [|discriminate]
      | match ?l with [] => _ | _ => _ end = _ => destruct l; [discriminate|]
      end; injection E1 as _ <-; exact F.
Qed.

(** After the data every layer holds the range of the values it put out. *)
Lemma fed_bound s1 rs1 s2 : each start_obj (top_layers m) st = Ok s1 -> feed pw ln2 m (batches ds bsz) s1 = Ok (rs1, s2) ->
  forall i, In i (top_layers m) -> exists o o2, nth_error st i = Some o /\ nth_error s2 i = Some o2 /\ twin o o2 /\ forall g, g < ngroups (l_paq (o_layer o2)) ->
    exists r a b, frac_bits (l_paq (o_layer o2)) g r /\ holds_range (l_paq (o_layer o2)) g a b /\ on_grid r a /\ on_grid r b /\ (a <= b)%Qc /\
      abound (o_act o2) a /\ abound (o_act o2) b.
Proof.
  intros E1 E2. pose proof (start_step m true st s1 HO E1) as O1. intros i Hi.
    destruct (each_spec _ _ (top_NoDup m) _ _ E1) as [_ [A1 _]]. destruct (A1 i Hi) as [o [o1 [Eo [Es Eo1]]]]. injection Es as <-. set (o1 := with_record (reset_obj o) true) in *.
    assert (T1 : twin o o1). { split; [|split; reflexivity]. eexists _, _. reflexivity. }
    pose proof (feed_spec pw ln2 s1 m n ds bsz s1 (noV) O1 HL' HD Hb (rel_refl s1 noV (fun _ _ _ H => H))) as FS. rewrite E2 in FS. destruct FS as [HR [RV _]].
    destruct RV as [_ RR]. destruct (RR i o1 Eo1) as [o2 [Eo2 R2]]. exists o, o2. split; [assumption|]. split; [assumption|]. split; [exact (twin_trans _ _ _ T1 (twin_rel _ _ _ R2))|]. intros g Hg.
    assert (F1 : fresh_regs (l_paq (o_layer o1))). { intros g0. split; apply nth_repeat_map. }
    pose proof (twin_rel _ _ _ R2) as T2.
    assert (NG : ngroups (l_paq (o_layer o2)) = ngroups (l_paq (o_layer o1))) by (destruct T2 as [[a [b X]] _]; rewrite X; reflexivity). rewrite NG in Hg.
    assert (FB : forall r, frac_bits (l_paq (o_layer o2)) g r <-> frac_bits (l_paq (o_layer o1)) g r) by (destruct T2 as [[a [b X]] _]; rewrite X; reflexivity).
    assert (Ok1 : obj_ok o1) by (rewrite Forall_forall in O1; apply O1; eapply nth_error_In, Eo1).
    assert (NE : exists v, vall pw ln2 s1 m noV (map (sample_of ds) (seq 0 n)) i g v).
    { rewrite Forall_forall in HR. set (s := sample_of ds 0). assert (Hs : In s (map (sample_of ds) (seq 0 n))) by (apply in_map, in_seq; lia).
      destruct (vis_facts pw ln2 s1 m s (HR s Hs)) as [HLg HTp]. destruct (HTp i Hi) as [y Hy]. destruct (HLg i y Hy) as [o1_ [xs [E1_ ->]]]. assert (o1_ = o1) by congruence. subst o1_.
      exists (nth g (ysamp pw ln2 (o_layer o1) xs) (qz 0)). right. exists s, (ysamp pw ln2 (o_layer o1) xs). split; [assumption|]. split; [assumption|]. exists o1. split; [assumption|].
      exists 0. cbn [Nat.mul Nat.add]. apply nth_err. rewrite ysamp_length.
      destruct Ok1 as [L1 [L2 _]]. destruct L1 as [_ [L1 _]]. destruct (recordable_facts _ _ L2 L1) as [_ [_ [[K HK] _]]]. rewrite HK in *. destruct K; [cbn in L1; lia|]. cbn [Nat.mul]. lia. }
    pose proof (nearest_even_ex (nth g (data (q_fbw (l_paq (o_layer o1)))) (qz 0))) as Hr. set (r := qround_even (nth g (data (q_fbw (l_paq (o_layer o1)))) (qz 0))) in *.
    change (frac_bits (l_paq (o_layer o1)) g r) in Hr.
    assert (A2 : o_act o2 = o_act o1) by apply T2.
    assert (VV : forall v, vall pw ln2 s1 m noV (map (sample_of ds) (seq 0 n)) i g v -> on_grid r v /\ abound (o_act o2) v).
    { intros v [[]|[s [y [Hs [Hy [o1_ [E1_ Hgv]]]]]]]. assert (o1_ = o1) by congruence. subst o1_. rewrite Forall_forall in HR.
      destruct (vis_facts pw ln2 s1 m s (HR s Hs)) as [HLg _]. destruct (HLg i y Hy) as [o1_ [xs [E1_' ->]]]. assert (o1_ = o1) by congruence. subst o1_.
      rewrite A2. eapply visit_value; try eassumption. apply (twin_act _ _ T1). eapply top_act; eassumption. }
    destruct (regs_of o1 _ o2 g eq_refl F1 R2 Hg NE) as [a [b [Hab [Va [Vb Hall]]]]]. exists r, a, b. split; [apply FB, Hr|]. split; [exact Hab|].
    split; [apply VV, Va|]. split; [apply VV, Vb|]. split; [apply (Hall b Vb)|]. split; [apply VV, Va|apply VV, Vb].
Qed.
Lemma fed_range s1 rs1 s2 : each start_obj (top_layers m) st = Ok s1 -> feed pw ln2 m (batches ds bsz) s1 = Ok (rs1, s2) ->
  forall i, In i (top_layers m) -> exists o o2, nth_error st i = Some o /\ nth_error s2 i = Some o2 /\ twin o o2 /\ forall g, g < ngroups (l_paq (o_layer o2)) ->
    exists r a b, frac_bits (l_paq (o_layer o2)) g r /\ holds_range (l_paq (o_layer o2)) g a b /\ on_grid r a /\ on_grid r b /\ (a <= b)%Qc.
Proof.
  intros E1 E2 i Hi. destruct (fed_bound s1 rs1 s2 E1 E2 i Hi) as (o & o2 & A & B & C & D). exists o, o2. split; [assumption|]. split; [assumption|]. split; [assumption|].
  intros g Hg. destruct (D g Hg) as (r & a & b & H1 & H2 & H3 & H4 & H5 & _). exists r, a, b. auto.
Qed.

(** A larger cover_factor gives wider ranges. *)
Lemma trace_larger cc ss' bb rr c' bops' rs' st'' : (cc <= c')%Qc ->
  trace_minmax pw ln2 eb m ds bsz true cc false st = Ok (bb, rr, ss') ->
  trace_minmax pw ln2 eb m ds bsz true c' false st = Ok (bops', rs', st'') -> wider_store ss' st''.
Proof.
  intros Hc E E'. destruct (trace_split pw ln2 eb m ds bsz true cc false st bb rr ss' Hb E) as [s4 [[s1 [s2 [s3 [E1 [E2 [E3 E4]]]]]] C]].
  destruct (trace_split pw ln2 eb m ds bsz true c' false st bops' rs' st'' Hb E') as [s4' [[s1' [s2' [s3' [E1' [E2' [E3' E4']]]]]] C']].
  assert (s1' = s1) by congruence. subst s1'. assert (s2' = s2) by congruence. subst s2'.
  pose proof (start_step m true st s1 HO E1) as O1. pose proof (feed_ok pw ln2 m n ds bsz s1 rr s2 O1 HL' HD Hb E2) as O2.
  assert (W3 : wider_store s3 s3').
  { eapply cover_step_larger; [exact O2|exact Hc| |exact E3|exact E3']. intros i Hi. destruct (fed_range s1 _ s2 E1 E2 i Hi) as (o & o2 & _ & X & _ & Y). eauto. }
  assert (O3 : forall d u, cover_step pw ln2 m d s2 = Ok u -> Forall obj_ok u).
  { intros d u Eu. unfold cover_step in Eu. destruct (qeqb d (qz 1)); [injection Eu as <-; exact O2|]. destruct (qltb _ _); [|discriminate].
    eapply each_forall; [apply top_NoDup|exact O2|intros o o' A B; apply (cover_ok pw ln2 d o o' A B)|exact Eu]. }
  assert (W4 : wider_store s4 s4') by (eapply (each_wider fix_obj); [apply top_NoDup|exact fix_wider|eapply O3, E3|eapply O3, E3'|exact W3|exact E4|exact E4']).
  eapply count_wider; [apply top_NoDup|exact W4|exact C|exact C'].
Qed.

(** Whatever the data, a large enough cover factor covers it. *)
Lemma cover_covers b1 r1 s5 B nb ys s : trace_minmax pw ln2 eb m ds bsz true (qz 1) false st = Ok (b1, r1, s5) ->
  (forall i o g, In i (top_layers m) -> nth_error s5 i = Some o -> g < ngroups (l_paq (o_layer o)) -> exists a b, holds_range (l_paq (o_layer o)) g a b /\ (a < b)%Qc) ->
  Forall (fun b => length b = nb) B -> 0 < nb -> call_model pw ln2 m B s5 = Ok (ys, s) ->
  exists c0, forall c bops rs st', (c0 <= c)%Qc -> trace_minmax pw ln2 eb m ds bsz true c false st = Ok (bops, rs, st') -> inside pw ln2 m B st'.
Proof.
  intros T1 ND LB NB EC. pose proof (trace_ok pw ln2 eb m n ds bsz true (qz 1) false st b1 r1 s5 HO HL' HD Hb T1) as O5.
  pose proof (sim_run pw ln2 s5 m O5 HL' nb B s5 noV NB LB (rel_refl _ noV (fun _ _ _ H => H))) as SR. unfold call_model in EC. rewrite EC in SR. destruct SR as [_ [vis [Hvis _]]].
  assert (TWL : forall o, twin o (with_record o true)).
  { intros o. destruct (twin_refl o) as [A _]. split; [exact A|split; reflexivity]. }
  assert (HRUN : forall j, j < nb -> runs pw ln2 s5 m (cols B j)) by (intros j Hj; eexists; exact (Hvis j [] Hj)).
  destruct (trace_split pw ln2 eb m ds bsz true (qz 1) false st b1 r1 s5 Hb T1) as [s4 [[s1 [s2 [s3 [E1 [E2 [E3 E4]]]]]] C]].
  unfold cover_step in E3. change (qeqb (qz 1) (qz 1)) with true in E3. injection E3 as <-.
  pose proof (start_step m true st s1 HO E1) as O1. pose proof (feed_ok pw ln2 m n ds bsz s1 r1 s2 O1 HL' HD Hb E2) as O2.
  assert (SAME : forall c bops rs st', (qz 2 <= c)%Qc -> trace_minmax pw ln2 eb m ds bsz true c false st = Ok (bops, rs, st') ->
    forall i, In i (top_layers m) -> exists o2 p p' o', nth_error s2 i = Some o2 /\ cover_obj pw ln2 c o2 = Ok p /\ fix_obj p = Ok p' /\ nth_error st' i = Some o' /\ o_layer o' = o_layer p').
  { intros c1 b2 r2 st2 Hc1 T2 i Hi. destruct (trace_split pw ln2 eb m ds bsz true c1 false st b2 r2 st2 Hb T2) as [t4 [[t1 [t2 [t3 [F1 [F2 [F3 F4]]]]]] C2]].
    assert (t1 = s1) by congruence. subst t1. assert (t2 = s2) by congruence. subst t2. unfold cover_step in F3. destruct (qeqb_spec c1 (qz 1)) as [->|_]; [exfalso; qlra|].
    destruct (qltb_spec (qz 0) c1); [|exfalso; qlra]. destruct (each_spec _ _ (top_NoDup m) _ _ F3) as [_ [A3 _]]. destruct (A3 i Hi) as [o2 [p [P1 [P2 P3]]]].
    destruct (each_spec _ _ (top_NoDup m) _ _ F4) as [_ [A4 _]]. destruct (A4 i Hi) as [p_ [p' [P4 [P5 P6]]]]. assert (p_ = p) by congruence. subst p_.
    destruct (count_spec eb _ (top_NoDup m) _ _ _ C2) as [_ [A5 _]]. destruct (A5 i Hi) as [p'_ [d [P7 P8]]]. assert (p'_ = p') by congruence. subst p'_.
    exists o2, p, p'. eexists. split; [exact P1|]. split; [exact P2|]. split; [exact P5|]. split; [exact P8|reflexivity]. }
  set (P := fun (c : Qc) (z : nat * sample) => forall bops rs st', trace_minmax pw ln2 eb m ds bsz true c false st = Ok (bops, rs, st') ->
    forall o e, nth_error s5 (fst z) = Some o -> e < length (snd z) -> keeps st' (fst z) (e mod ngroups (l_paq (o_layer o))) (nth e (snd z) (qz 0))).
  destruct (all_from (flat_map (fun j => vis1 pw ln2 s5 m (cols B j)) (seq 0 nb)) P) as [c0 H0].
  { intros [i y] Hz. apply in_flat_map in Hz. destruct Hz as [j [Hj Hy]]. apply in_seq in Hj. pose proof (HRUN j ltac:(lia)) as Hrun.
    destruct (vis_facts pw ln2 s5 m _ Hrun) as [HLg _]. destruct (HLg i y Hy) as [o5 [xs [E5 Ey]]].
    assert (Hi : In i (top_layers m)). { unfold vis1 in Hy. destruct Hrun as [[ys' vis'] Er]. rewrite Er in Hy. eapply visited_top; eassumption. }
    assert (Ok5 : obj_ok o5) by (rewrite Forall_forall in O5; apply O5; eapply nth_error_In, E5).
    destruct (fed_range s1 r1 s2 E1 E2 i Hi) as [o [o2 [E0 [Eo2 [T02 FR]]]]].
    assert (Ok2 : obj_ok o2) by (rewrite Forall_forall in O2; apply O2; eapply nth_error_In, Eo2).
    destruct (each_spec _ _ (top_NoDup m) _ _ E4) as [_ [A4 _]]. destruct (A4 i Hi) as [o2_ [o4 [X1 [X2 X3]]]]. assert (o2_ = o2) by congruence. subst o2_.
    destruct (count_spec eb _ (top_NoDup m) _ _ _ C) as [_ [A5 _]]. destruct (A5 i Hi) as [o4_ [d [X4 X5]]]. assert (o4_ = o4) by congruence. subst o4_.
    assert (o5 = mkO (o_layer o4) false (o_act o4) (o_ins o4) d) by congruence.
    destruct (fix_spec o2 o4 Ok2 X2) as [S24 [_ FS]]. pose proof (twin_sbr _ _ S24) as T24.
    assert (T25 : twin o2 o5). { subst o5. destruct T24 as [A [B' C']]. split; [exact A|split; assumption]. }
    assert (NG : ngroups (l_paq (o_layer o5)) = ngroups (l_paq (o_layer o2))) by (destruct T25 as [[a [b X]] _]; rewrite X; reflexivity).
    assert (FB : forall g r, frac_bits (l_paq (o_layer o5)) g r <-> frac_bits (l_paq (o_layer o2)) g r) by (intros; destruct T25 as [[a [b X]] _]; rewrite X; reflexivity).
    assert (HA : act_ok o5) by (apply (twin_act _ _ T25), (twin_act _ _ T02); eapply top_act; eassumption).
    assert (NP : 0 < ngroups (l_paq (o_layer o5))). { destruct Ok5 as [L1 [L2 _]]. destruct L1 as [_ [L1 _]]. destruct (recordable_facts _ _ L2 L1) as [_ [_ [[K HK] _]]]. destruct (ngroups (l_paq (o_layer o5))); [rewrite Nat.mul_0_r in HK; lia|lia]. }
    destruct (all_from (seq 0 (length y)) (fun c e => forall bops rs st', trace_minmax pw ln2 eb m ds bsz true c false st = Ok (bops, rs, st') ->
       keeps st' i (e mod ngroups (l_paq (o_layer o5))) (nth e y (qz 0)))) as [c0 H0].
    { intros e He. apply in_seq in He. set (g := e mod ngroups (l_paq (o_layer o5))). set (v := nth e y (qz 0)).
      assert (Hg : g < ngroups (l_paq (o_layer o5))) by (apply Nat.mod_upper_bound; lia).
      assert (Hin : in_group (ngroups (l_paq (o_layer o5))) g (ysamp pw ln2 (o_layer o5) xs) v).
      { exists (e / ngroups (l_paq (o_layer o5))). rewrite <- Ey. rewrite Nat.mul_comm. unfold g. rewrite <- Nat.div_mod by lia. unfold v. apply nth_err. lia. }
      destruct (FR g ltac:(lia)) as [r [a [b [Hr [Hab [Ga [Gb Lab]]]]]]].
      destruct (visit_value pw ln2 o5 g v xs r Ok5 HA Hg (proj2 (FB g r) Hr) Hin) as [Gv Av].
      assert (EA : o_act o5 = o_act o2) by apply T25. rewrite EA in Av.
      assert (Hd : (a < b)%Qc \/ o_act o2 = ASoftmax).
      { destruct (ND i o5 g Hi E5 Hg) as [a' [b' [H' L']]]. assert (H4 : holds_range (l_paq (o_layer o4)) g a' b') by (subst o5; exact H').
        assert (Hg2 : g < length (data (q_fbw (l_paq (o_layer o2))))) by (unfold ngroups in NG, Hg; lia).
        specialize (FS g a b Hg2 Hab). destruct H4 as [H41 H42]. destruct (o_act o2); [right; reflexivity| | | |]; left; destruct FS as [F1 F2]; rewrite H41 in F1; rewrite H42 in F2;
          injection F1 as F1; injection F2 as F2; subst a' b'; try exact L'; revert L'; unfold qmax, qmin;
          repeat match goal with |- context [qleb ?x ?y] => destruct (qleb_spec x y) end; intros; qlra. }
      destruct (cover_enough pw ln2 o2 g r a b v Ok2 ltac:(lia) Hr Hab Hd Gv Av) as [c0 H0]. exists (qmax c0 (qz 2)). intros c1 Hc1 b2 r2 st2 T2 o' Eo'.
      assert ((c0 <= c1)%Qc /\ (qz 2 <= c1)%Qc) as [C1 C2] by (unfold qmax in Hc1; destruct (qleb_spec c0 (qz 2)); split; qlra).
      destruct (SAME c1 b2 r2 st2 C2 T2 i Hi) as [o2_ [p [p' [o'_ [Y1 [Y2 [Y3 [Y4 Y5]]]]]]]]. assert (o2_ = o2) by congruence. assert (o'_ = o') by congruence. subst o2_ o'_.
      destruct (H0 c1 p p' C1 Y2 Y3) as [x [y' [[K1 K2] [K3 K4]]]]. rewrite Y5, K1, K2. split; [exact K3|exact K4]. }
    exists c0. intros c1 Hc1 b2 r2 st2 T2 o_ e Eo_ He. cbn [fst snd] in *. assert (o_ = o5) by congruence. subst o_. apply (H0 c1 Hc1 e (proj2 (in_seq _ _ _) (conj (Nat.le_0_l _) He)) b2 r2 st2 T2). }
  exists (qmax c0 (qz 2)). intros c1 b2 r2 st2 Hc1 T2.
  assert ((c0 <= c1)%Qc /\ (qz 2 <= c1)%Qc) as [C1 C2] by (unfold qmax in Hc1; destruct (qleb_spec c0 (qz 2)); split; qlra).
  pose proof (trace_ok pw ln2 eb m n ds bsz true c1 false st b2 r2 st2 HO HL' HD Hb T2) as O'.
  assert (LE : (qz 1 <= c1)%Qc) by (clear - C2; qlra).
  destruct (trace_larger (qz 1) s5 b1 r1 c1 b2 r2 st2 LE T1 T2) as [WL W].
  assert (SE : forall j, run (sem1 pw ln2 (listening st2)) m (cols B j) [] = run (sem1 pw ln2 s5) m (cols B j) []).
  { intros j. apply run_ext. eapply leaves_impl; [|exact HL']. intros x _ vs log. apply (same_sem1 pw ln2 m); [unfold listening; rewrite map_length; assumption|].
    intros i o E. rewrite listening_nth. destruct (nth_error st2 i) as [p'|] eqn:Ep'; [|apply nth_error_None in Ep'; apply nth_error_lt in E; lia].
    eexists. split; [reflexivity|]. eapply twin_trans; [|apply TWL]. pose proof (W i o p' E Ep') as Hw. split; [apply wider_obj_regs, Hw|]. destruct Hw as [_ [A [B' _]]]. auto. }
  apply (inside_iff pw ln2 st2 m B nb O' HL' LB NB). intros j Hj. split; [unfold runs; rewrite SE; apply HRUN, Hj|].
  intros i y g v Hy Hg [o3 [E3 Hgo]]. unfold vis1 in Hy. rewrite SE in Hy.
  assert (Hi5 : exists o5, nth_error s5 i = Some o5). { destruct (nth_error s5 i) eqn:E; [eauto|]. apply nth_error_None in E. apply nth_error_lt in E3. lia. }
  destruct Hi5 as [o5 E5]. pose proof (W i o5 o3 E5 E3) as Hw. destruct (wider_obj_regs _ _ Hw) as [u [w EL]].
  assert (NG : ngroups (l_paq (o_layer o3)) = ngroups (l_paq (o_layer o5))) by (rewrite EL; reflexivity).
  destruct Hg as [o_ [Eo_ [k Hk]]]. rewrite listening_nth, E3 in Eo_. injection Eo_ as <-. cbn [with_record o_layer] in Hk. rewrite NG in Hk, Hgo.
  assert (He : k * ngroups (l_paq (o_layer o5)) + g < length y) by (apply nth_error_Some; congruence).
  assert (Hz : In (i, y) (flat_map (fun j => vis1 pw ln2 s5 m (cols B j)) (seq 0 nb))) by (apply in_flat_map; exists j; split; [apply in_seq; lia|exact Hy]).
  pose proof (H0 c1 C1 (i, y) Hz b2 r2 st2 T2 o5 _ E5 He) as K. cbn [fst snd] in K.
  rewrite Nat.add_comm, Nat.mod_add, Nat.mod_small in K by lia. rewrite Nat.add_comm in K. apply (nth_error_nth _ _ (qz 0)) in Hk. rewrite Hk in K. exact K.
Qed.

(** A group that put out one value only gets no margin from any cover factor. *)
Lemma cover_point c1 o g r a p : obj_ok o -> g < ngroups (l_paq (o_layer o)) -> frac_bits (l_paq (o_layer o)) g r -> holds_range (l_paq (o_layer o)) g a a -> on_grid r a ->
  cover_obj pw ln2 c1 o = Ok p -> holds_range (l_paq (o_layer p)) g a a.
Proof.
  intros Ok_ Hg Hr [Ha Hb'] Ga E. destruct (cover_finite pw ln2 c1 o p E) as [mn [mx [E1 E2]]]. pose proof (cover_value pw ln2 c1 o mn mx Ok_ E1 E2) as V. cbv zeta in V.
  rewrite E in V. apply (f_equal (fun r => match r with Ok a => a | Raise => p end)) in V. cbv beta iota in V.
  destruct (finite_spec _ _ E1) as [_ [L1 V1]]. destruct (finite_spec _ _ E2) as [_ [L2 V2]]. destruct (obj_ok_len o Ok_) as [N1 N2].
  rewrite (V1 g (qz 0)) in Ha by (rewrite N1; exact Hg). rewrite (V2 g (qz 0)) in Hb' by (rewrite N2; exact Hg). injection Ha as Ha. injection Hb' as Hb'.
  set (q := l_paq (o_layer o)) in *.
  assert (EV : qval (q_strategy q) (nth g (data (q_fbw q)) (qz 0)) a = a) by exact (quantized_id _ _ _ _ (qval_quantized q _ a r Hr) Ga).
  assert (EL : cover_lo c1 a a = a) by (unfold cover_lo; rewrite !half_div; assert (X : (qhalf + qhalf = qz 1)%Qc) by (apply Qc_is_canon; reflexivity);
    replace ((a + a) * qhalf - (a - a) * qhalf * c1)%Qc with (a * (qhalf + qhalf))%Qc by ring; rewrite X; qlra).
  assert (EH : cover_hi c1 a a = a) by (unfold cover_hi; rewrite !half_div; assert (X : (qhalf + qhalf = qz 1)%Qc) by (apply Qc_is_canon; reflexivity);
    replace ((a + a) * qhalf + (a - a) * qhalf * c1)%Qc with (a * (qhalf + qhalf))%Qc by ring; rewrite X; qlra).
  rewrite V. unfold holds_range, with_paq, with_layer. cbn [o_layer l_paq with_minmax q_min q_max data]. rewrite !reg_vals_nth by assumption. fold q.
  rewrite Ha, Hb', EL, EH, EV. split; reflexivity.
Qed.
Lemma trace_point b1 r1 s5 c1 b2 r2 s6 i o o' g a : trace_minmax pw ln2 eb m ds bsz true (qz 1) false st = Ok (b1, r1, s5) ->
  trace_minmax pw ln2 eb m ds bsz true c1 false st = Ok (b2, r2, s6) -> In i (top_layers m) -> nth_error s5 i = Some o -> nth_error s6 i = Some o' ->
  o_act o = ALinear \/ o_act o = AOther -> g < ngroups (l_paq (o_layer o)) -> holds_range (l_paq (o_layer o)) g a a -> holds_range (l_paq (o_layer o')) g a a.
Proof.
  intros T1 T2 Hi E5 E6 HA Hg Hh. destruct (qeqb_spec c1 (qz 1)) as [->|Hne]; [assert (s6 = s5) by congruence; subst s6; assert (o' = o) by congruence; subst; assumption|].
  destruct (trace_split pw ln2 eb m ds bsz true (qz 1) false st b1 r1 s5 Hb T1) as [s4 [[s1 [s2 [s3 [E1 [E2 [E3 E4]]]]]] C]].
  unfold cover_step in E3. change (qeqb (qz 1) (qz 1)) with true in E3. injection E3 as <-.
  pose proof (start_step m true st s1 HO E1) as O1. pose proof (feed_ok pw ln2 m n ds bsz s1 r1 s2 O1 HL' HD Hb E2) as O2.
  destruct (trace_split pw ln2 eb m ds bsz true c1 false st b2 r2 s6 Hb T2) as [t4 [[t1 [t2 [t3 [F1 [F2 [F3 F4]]]]]] C2]].
  assert (t1 = s1) by congruence. subst t1. assert (t2 = s2) by congruence. subst t2. unfold cover_step in F3. destruct (qeqb_spec c1 (qz 1)) as [|_]; [contradiction|].
  destruct (qltb _ _); [|discriminate]. destruct (each_spec _ _ (top_NoDup m) _ _ F3) as [_ [A3 _]]. destruct (A3 i Hi) as [o2 [p [P1 [P2 P3]]]].
  destruct (each_spec _ _ (top_NoDup m) _ _ F4) as [_ [A4 _]]. destruct (A4 i Hi) as [p_ [p' [P4 [P5 P6]]]]. assert (p_ = p) by congruence. subst p_.
  destruct (count_spec eb _ (top_NoDup m) _ _ _ C2) as [_ [A5 _]]. destruct (A5 i Hi) as [p'_ [d [P7 P8]]]. assert (p'_ = p') by congruence. subst p'_.
  destruct (each_spec _ _ (top_NoDup m) _ _ E4) as [_ [B4 _]]. destruct (B4 i Hi) as [o2_ [o4 [X1 [X2 X3]]]]. assert (o2_ = o2) by congruence. subst o2_.
  destruct (count_spec eb _ (top_NoDup m) _ _ _ C) as [_ [B5 _]]. destruct (B5 i Hi) as [o4_ [d' [X4 X5]]]. assert (o4_ = o4) by congruence. subst o4_.
  assert (Eo : o = mkO (o_layer o4) false (o_act o4) (o_ins o4) d') by congruence. assert (Eo' : o' = mkO (o_layer p') false (o_act p') (o_ins p') d) by congruence.
  assert (Ok2 : obj_ok o2) by (rewrite Forall_forall in O2; apply O2; eapply nth_error_In, P1).
  destruct (fix_spec o2 o4 Ok2 X2) as [[u [w S24]] _]. destruct (cover_ok pw ln2 c1 o2 p Ok2 P2) as [Okp [u' [w' S2p]]].
  assert (A2 : o_act o2 = ALinear \/ o_act o2 = AOther). { rewrite Eo in HA. cbn [o_act] in HA. rewrite S24 in HA. exact HA. }
  assert (Ap : o_act p = ALinear \/ o_act p = AOther) by (rewrite S2p; exact A2).
  assert (EQ4 : o4 = o2). { unfold fix_obj in X2. destruct A2 as [A2|A2]; rewrite A2 in X2; injection X2 as <-; reflexivity. } rewrite EQ4 in Eo.
  assert (p' = p). { unfold fix_obj in P5. destruct Ap as [Ap|Ap]; rewrite Ap in P5; injection P5 as <-; reflexivity. } subst p'.
  rewrite Eo in Hg, Hh. cbn [o_layer] in Hg, Hh. rewrite Eo'. cbn [o_layer].
  destruct (fed_range s1 r1 s2 E1 E2 i Hi) as [o0 [o2_ [_ [Eo2 [_ FR]]]]]. assert (o2_ = o2) by congruence. subst o2_.
  destruct (FR g Hg) as [r [a' [b' [Hr [Hab [Ga _]]]]]]. assert (a' = a) by (destruct Hab, Hh; congruence). subst a'.
  exact (cover_point c1 o2 g r a p Ok2 Hg Hr Hh Ga P2).
Qed.

Hypothesis Hc : (qz 1 <= c)%Qc.
Hypothesis ET : trace_minmax pw ln2 eb m ds bsz true c false st = Ok (bops, rs, st').
Hypothesis HB : forall i o', In i (top_layers m) -> nth_error st' i = Some o' -> in_bounds (l_paq (o_layer o')).

Lemma trace_inside B : batch_of n ds B -> inside pw ln2 m B st'.
Proof.
  intros [js [Hjs [HJ EB]]]. destruct (calibration pw ln2 eb m n ds bsz c st st' bops rs HO HL HD Hn Hb Hc ET HB) as [st1 [st2 [O1 [HR [RV HT]]]]].
  pose proof (trace_ok pw ln2 eb m n ds bsz true c false st bops rs st' HO HL' HD Hb ET) as O'.
  assert (LB : Forall (fun b => length b = length js) B). { subst B. apply Forall_forall. intros b Hb'. apply in_map_iff in Hb'. destruct Hb' as [d [<- _]]. apply map_length. }
  assert (NB : 0 < length js) by (destruct js; [congruence|cbn; lia]).
  apply (inside_iff pw ln2 st' m B _ O' HL' LB NB). intros j Hj. destruct (batch_cols n ds bsz Hn Hb B js EB HJ j Hj) as [_ Hin]. rewrite Forall_forall in HR. pose proof (HR _ Hin) as Hrun.
  assert (SE : run (sem1 pw ln2 (listening st')) m (cols B j) [] = run (sem1 pw ln2 st1) m (cols B j) []).
  { apply run_ext. eapply leaves_impl; [|exact HL]. intros [u k] Hx vs log.
    assert (K : forall i, In i (top_layers m) -> (k = KH i \/ k = KQuant i) -> sem1 pw ln2 (listening st') (u, k) vs log = sem1 pw ln2 st1 (u, k) vs log).
    { intros i Hi HK. destruct (HT i Hi) as [o [o1 [o' [E0 [E1 [E' [T1 [T' _]]]]]]]]. pose proof T' as [[mn [mx EL]] [EA EI]].
      assert (G : rbind (get (listening st') i) (fun o => if negb (sized_all (o_ins o) (map (fun s => [s]) vs)) then Raise
          else match vs with [] => Raise | _ => Ok (yout pw ln2 (o_layer o) vs, log ++ [(i, ysamp pw ln2 (o_layer o) vs)]) end) =
        rbind (get st1 i) (fun o => if negb (sized_all (o_ins o) (map (fun s => [s]) vs)) then Raise
          else match vs with [] => Raise | _ => Ok (yout pw ln2 (o_layer o) vs, log ++ [(i, ysamp pw ln2 (o_layer o) vs)]) end)).
      { unfold get. rewrite listening_nth, E', E1. cbn [option_map rbind]. cbn [with_record o_ins o_layer]. rewrite EI. destruct (negb _); [reflexivity|]. rewrite (twin_yout pw ln2 _ _ vs T'), (twin_ysamp pw ln2 _ _ vs T'). reflexivity. }
      destruct HK; subst k; exact G. }
    unfold supported in Hx. cbn [snd] in Hx. destruct k as [i|i|cf out|g|p| |g|q out|]; try reflexivity; (apply (K i); [apply Hx|auto]). }
  split; [unfold runs; rewrite SE; exact Hrun|]. intros i y g v Hy Hg [o3 [E3 Hgo]] o'_ Eo'_. assert (o'_ = o3) by congruence. subst o3.
  unfold vis1 in Hy. rewrite SE in Hy. destruct (vis_facts pw ln2 st1 m _ Hrun) as [HLg _]. destruct (HLg i y Hy) as [o1 [xs [E1 Ey]]].
  assert (Hi : In i (top_layers m)). { destruct Hrun as [[ys vis] Er]. rewrite Er in Hy. eapply visited_top; eassumption. }
  destruct (HT i Hi) as [o [o1_ [o' [E0 [E1_ [E' [T1 [T' [Hr1 [Hr' [Hf HC]]]]]]]]]]]. assert (o1_ = o1) by congruence. assert (o'_ = o') by congruence. subst o1_ o'_.
  assert (HA : act_ok o1) by (apply (twin_act _ _ T1); eapply top_act; eassumption). destruct (HC HA) as [_ HI].
  assert (NG : ngroups (l_paq (o_layer o')) = ngroups (l_paq (o_layer o1))) by (destruct T' as [[a [b X]] _]; rewrite X; reflexivity).
  destruct Hg as [o2_ [E2_ Hin_]]. rewrite listening_nth, E' in E2_. injection E2_ as <-. cbn [with_record o_layer] in Hin_. rewrite NG in Hin_.
  rewrite NG in Hgo. subst y. destruct RV as [_ RR]. destruct (RR i o1 E1) as [o2 [E2 R2]].
  assert (HV : vall pw ln2 st1 m ProxyGuardP.noV (samples_of n ds) i g v).
  { right. exists (cols B j), (ysamp pw ln2 (o_layer o1) xs). split; [assumption|]. split; [exact Hy|]. exists o1. auto. }
  destruct (regs_of o1 _ o2 g Hr1 Hf R2 Hgo (ex_intro _ v HV)) as [a [b [Hab [_ [_ Hall]]]]].
  destruct (HI g v xs Hgo Hin_) as [o4 [mn [mx [E4 [[H1 H2] [H3 H4]]]]]]; [exists o2, a, b; repeat split; try assumption; apply Hab || apply (Hall v HV)|].
  assert (o4 = o') by congruence. subst o4. rewrite H1, H2. auto.
Qed.

(** ** The proxy on data inside the ranges *)
Lemma unseen_eval strict S0 : (strict = true -> forall i o', In i (top_layers m) -> nth_error st' i = Some o' -> steady o') ->
  S0 = "WRAP"%string \/ S0 = "SAT"%string -> forall B, inside pw ln2 m B st' -> promises_kept pw ln2 m B st' ->
  exists ys, eval (isem pw ln2 S0 st' strict) m B = Ok ys /\ leaves (fun x => exists lx, proxy_xf pw ln2 S0 st' (Some x) = Ok lx) m /\
    call_model pw ln2 m B st' = Ok (ys, st').
Proof.
  intros HSt HS B [outs ER] HPk.
  destruct (calibration pw ln2 eb m n ds bsz c st st' bops rs HO HL HD Hn Hb Hc ET HB) as [st1 [st2 [O1 [HR [RV HT]]]]].
  pose proof (trace_ok pw ln2 eb m n ds bsz true c false st bops rs st' HO HL' HD Hb ET) as O'.
  pose proof (listening_ok st' O') as OL.
  assert (CAL : forall i, In i (top_layers m) -> exists o o', nth_error st i = Some o /\ nth_error st' i = Some o' /\ twin o o' /\ o_record o' = false /\ calibrated (l_paq (o_layer o'))).
  { intros i Hi. destruct (HT i Hi) as [o [o1 [o' [E0 [E1 [E' [T1 [T' [Hr1 [Hr' [Hf HC]]]]]]]]]]]. exists o, o'. split; [assumption|]. split; [assumption|].
    split; [exact (twin_trans _ _ _ T1 T')|]. split; [assumption|]. apply HC. apply (twin_act _ _ T1). eapply top_act; eassumption. }
  clear st1 st2 O1 HR RV HT.
  assert (TWL : forall o, twin o (with_record o true) /\ twin (with_record o true) o).
  { intros o. destruct (twin_refl o) as [A _]. split; (split; [exact A|split; reflexivity]). }
  assert (IB : Inv m (listening st') st' (listening st')).
  { intros V [_ RVB] i g v Hi [o1 [E1 Hg]] Hv. destruct (CAL i Hi) as [o [o' [E0 [E' [_ [_ HC]]]]]].
    rewrite listening_nth, E' in E1. injection E1 as <-. assert (E1 : nth_error (listening st') i = Some (with_record o' true)) by (rewrite listening_nth, E'; reflexivity).
    destruct (RVB i _ E1) as [oB [EB RB]]. assert (oB = with_record o' true) by congruence. subst oB.
    pose proof (obj_rel_stays (with_record o' true) _ eq_refl RB g v Hg Hv) as [K1 K2]. cbn [with_record o_layer] in *.
    destruct (HC g Hg) as (r & mn & mx & _ & _ & H1 & H2 & _). rewrite H1 in K1. rewrite H2 in K2. exists o', mn, mx. repeat split; assumption. }
  assert (HT0 : forall i, In i (top_layers m) -> exists o o1 o', nth_error st i = Some o /\ nth_error (listening st') i = Some o1 /\ nth_error st' i = Some o' /\
      twin o o1 /\ twin o1 o' /\ o_record o1 = true /\ o_record o' = false /\
      (act_ok o1 -> calibrated (l_paq (o_layer o')) /\
       forall g v xs, g < ngroups (l_paq (o_layer o1)) -> in_group (ngroups (l_paq (o_layer o1))) g (ysamp pw ln2 (o_layer o1) xs) v -> inr st' i g v -> inr st' i g v)).
  { intros i Hi. destruct (CAL i Hi) as [o [o' [E0 [E' [T [Hr HC]]]]]]. exists o, (with_record o' true), o'. split; [assumption|]. split; [rewrite listening_nth, E'; reflexivity|].
    split; [assumption|]. split; [eapply twin_trans; [exact T|apply TWL]|]. split; [apply TWL|]. split; [reflexivity|]. split; [assumption|]. intros _. split; [assumption|]. auto. }
  assert (GL : leaves (guard_leaf (call_layer pw ln2) (hsem pw ln2 st') (isem pw ln2 S0 st' strict) (Fwd (listening st')) (Inv m (listening st') st')) m).
  { eapply leaves_impl; [|exact HL]. intros x Hx. eapply guard_supported; eassumption. }
  destruct (run_guard (call_layer pw ln2) (hsem pw ln2 st') (isem pw ln2 S0 st' strict) (Fwd (listening st')) (Inv m (listening st') st') m GL B (listening st') outs (listening st')
    (ex_intro _ noV (rel_refl (listening st') noV (fun _ _ _ H => H))) ER) as [_ [_ GC]]. specialize (GC IB).
  pose proof (quiet_leaves pw ln2 eb m ds bsz c st st' bops rs HL ET) as QL.
  assert (EH : exists o2, eval (hsem pw ln2 st') m B = Ok o2).
  { destruct HPk as [r Er]. rewrite (run_const (checked pw ln2) (hsem pw ln2 st') st') in Er.
    - destruct (eval _ _ _) as [o2|]; [eauto|discriminate].
    - eapply leaves_impl; [|exact QL]. intros x Hx vs. unfold checked, hsem. destruct (promise x vs); [|reflexivity]. unfold psem.
      destruct (call_layer pw ln2 x vs st') as [[v s]|] eqn:Ec; [|reflexivity]. cbn [rbind fst]. rewrite (quiet_leaf pw ln2 x vs st' v s O' Hx Ec). reflexivity. }
  destruct EH as [o2 EH]. destruct (GC o2 EH) as [_ EI].
  exists outs. split; [exact EI|]. split.
  { eapply leaves_impl; [|exact HL]. intros [u k] Hx. unfold supported in Hx. cbn [snd] in Hx.
    destruct k as [i|i|cf out|g|[|]| |g|q out|]; cbn [proxy_xf]; eauto.
    - destruct Hx as [Hi [o [E0 HA]]]. destruct (CAL i Hi) as [o_ [o' [E0_ [E' [T [Hr' HCal]]]]]].
      assert (Ok' : obj_ok o') by (rewrite Forall_forall in O'; apply O'; eapply nth_error_In, E').
      destruct (obj_proxy pw ln2 S0 HS o' [] (conj Ok' (conj Hr' HCal)) (Forall_nil _)) as [p [Ep _]]. eexists. apply (px_kh pw ln2 S0 st' u i o' p E' Ep).
    - destruct Hx as [Hi [o [E0 [HA [Hid Hre]]]]]. destruct (CAL i Hi) as [o_ [o' [E0_ [E' [T [Hr' HCal]]]]]]. assert (o_ = o) by congruence. subst o_.
      assert (Ok' : obj_ok o') by (rewrite Forall_forall in O'; apply O'; eapply nth_error_In, E').
      destruct (obj_proxy pw ln2 S0 HS o' [] (conj Ok' (conj Hr' HCal)) (Forall_nil _)) as [p [Ep _]]. destruct (proxy_shape pw ln2 S0 _ _ (proj1 Ok') Ep) as [_ [_ [Pc _]]].
      assert (Hre' : l_relu (o_layer o') = false). { destruct T as [[a [b X]] _]. rewrite X. exact Hre. }
      destruct (p_chain p) as [q|q1 q2]; [|destruct Pc; congruence]. destruct Pc as [Pq _]. unfold get. rewrite E'. cbn [rbind]. rewrite Pq. cbn [rbind]. eauto. }
  unfold call_model. rewrite (run_const (call_layer pw ln2) (psem pw ln2 st') st').
  - rewrite (eval_mono (isem pw ln2 S0 st' strict) (psem pw ln2 st') m) with (outs := outs); [reflexivity| |exact EI].
    eapply leaves_impl; [|exact HL]. intros x _ vs v Ev. eapply gsem_psem, isem_ps, Ev.
  - eapply leaves_impl; [|exact QL]. intros x Hx vs. unfold psem. destruct (call_layer pw ln2 x vs st') as [[v s0]|] eqn:Ec; [|reflexivity].
    cbn [rbind fst]. rewrite (quiet_leaf pw ln2 x vs st' v s0 O' Hx Ec). reflexivity.
Qed.

Lemma unseen_model strict S0 : (strict = true -> forall i o', In i (top_layers m) -> nth_error st' i = Some o' -> steady o') ->
  S0 = "WRAP"%string \/ S0 = "SAT"%string -> single m -> (forall x, m <> Leaf x) -> forall fuel names B,
  depth m + 2 <= fuel -> inside pw ln2 m B st' -> promises_kept pw ln2 m B st' ->
  exists pm ns s ys, convert_model (fun x => fst x) (proxy_xf pw ln2 S0 st') fuel m names = Ok (pm, ns, s) /\ leaves proxy_layer pm /\
    call_model pw ln2 m B st' = Ok (ys, st') /\ eval (gsem pw ln2 st' strict) pm B = Ok ys /\ forall st'', call_model pw ln2 pm B st'' = Ok (ys, st'').
Proof.
  intros HSt HS Hsg HNL fuel names B Hfu HI HPk.
  destruct (unseen_eval strict S0 HSt HS B HI HPk) as [outs [EI [HX EC]]].
  destruct (conversion pw ln2 S0 st' HS strict fuel m names B outs Hsg HNL HX Hfu EI) as [pm [ns [s [C1 [C2 [CG C3]]]]]].
  exists pm, ns, s, outs. auto.
Qed.
End Main.
