(** The values met by a traced model lie in its calibrated ranges (C32). *)
From Coq Require Import ZArith Qcanon List Bool String Lia.
From Verif Require Import Base.Num Base.NumFacts Base.Tensor Model.FixedPoint Model.Quantizer Model.Layers Model.Graph
  Model.Convert Model.Trace Spec.Fixed Spec.Quant Spec.History Spec.Layer Spec.Graph Spec.Trace Proofs.TensorP Proofs.QuantizerP
  Proofs.BitsP Proofs.CallP Proofs.SampleP Proofs.LayersP Proofs.ConvertP
  Proofs.TraceP Proofs.FeedP Proofs.TraceMinmaxP Proofs.CoverP Proofs.TraceMoreP Proofs.ProxyModelP Proofs.ProxyLayerP Proofs.ProxyConvP.
Import ListNotations.
Local Open Scope nat_scope.

(** ** Objects that differ in registers *)
Definition twin (o o' : hobj) : Prop := (exists mn mx, o_layer o' = set_mm (o_layer o) mn mx) /\ o_act o' = o_act o /\ o_ins o' = o_ins o.
Lemma twin_refl o : twin o o.
Proof. split; [|auto]. exists (q_min (l_paq (o_layer o))), (q_max (l_paq (o_layer o))). destruct o as [[op q r lc out] rec a ins b]. unfold set_mm. cbn. rewrite with_minmax_id. reflexivity. Qed.
Lemma twin_trans a b c : twin a b -> twin b c -> twin a c.
Proof.
  intros [[mn [mx E]] [A1 I1]] [[mn' [mx' E']] [A2 I2]]. split; [|split; congruence]. exists mn', mx'. rewrite E', E. destruct (o_layer a). reflexivity.
Qed.
Lemma twin_sbr o o' : same_but_registers o o' -> twin o o'.
Proof. intros [mn [mx ->]]. split; [|split; reflexivity]. exists mn, mx. reflexivity. Qed.
Lemma twin_rel o V o' : obj_rel o V o' -> twin o o'.
Proof. intros [mn [mx [-> _]]]. split; [|split; reflexivity]. exists mn, mx. reflexivity. Qed.
Lemma twin_act o o' : twin o o' -> act_ok o -> act_ok o'.
Proof.
  intros [[mn [mx E]] [A I]]. unfold act_ok, bounded_fn, identity_fn. rewrite A, E, I. unfold set_mm. cbn [l_op l_paq l_out]. cbn [with_minmax q_fbw]. tauto.
Qed.
Lemma twin_id o o' : twin o o' -> identity_fn o -> identity_fn o'.
Proof. intros [[mn [mx E]] [A I]]. unfold identity_fn. rewrite E, I. unfold set_mm. cbn [l_op l_paq l_out]. tauto. Qed.

Definition abound (a : act) (v : Qc) : Prop :=
  match a with
  | ASoftmax | ASigmoid => (qz 0 <= v)%Qc /\ (v <= qz 1)%Qc
  | ATanh => (qz (-1) <= v)%Qc /\ (v <= qz 1)%Qc
  | _ => True
  end.

Lemma qmax_lub a b c : (a <= c)%Qc -> (b <= c)%Qc -> (qmax a b <= c)%Qc.
Proof. unfold qmax. destruct (qleb a b); auto. Qed.
Lemma qmin_glb a b c : (c <= a)%Qc -> (c <= b)%Qc -> (c <= qmin a b)%Qc.
Proof. unfold qmin. destruct (qleb a b); auto. Qed.
Lemma qmax_grid r a b : on_grid r a -> on_grid r b -> on_grid r (qmax a b).
Proof. unfold qmax. destruct (qleb a b); auto. Qed.
Lemma qmin_grid r a b : on_grid r a -> on_grid r b -> on_grid r (qmin a b).
Proof. unfold qmin. destruct (qleb a b); auto. Qed.

Section T.
Variables (pw : Qc -> Qc) (ln2 : Qc).

Lemma act_frac o g r : act_ok o -> g < ngroups (l_paq (o_layer o)) -> frac_bits (l_paq (o_layer o)) g r ->
  match o_act o with ASoftmax | ASigmoid | ATanh => (0 <= r)%Z | _ => True end.
Proof.
  unfold act_ok. intros HA Hg Hr. assert (I : In (nth g (data (q_fbw (l_paq (o_layer o)))) (qz 0)) (data (q_fbw (l_paq (o_layer o))))) by (apply nth_In, Hg).
  destruct (o_act o); try exact Logic.I; destruct HA as [f [_ [_ H]]]; apply (H _ r I Hr).
Qed.

Lemma transfer c o2 o3 o4 : obj_ok o2 -> (qz 1 <= c)%Qc -> act_ok o2 -> (o3 = o2 \/ cover_obj pw ln2 c o2 = Ok o3) -> fix_obj o3 = Ok o4 ->
  twin o2 o4 /\ obj_ok o4 /\
  forall g r mn mx, g < ngroups (l_paq (o_layer o2)) -> frac_bits (l_paq (o_layer o2)) g r -> holds_range (l_paq (o_layer o2)) g mn mx ->
    on_grid r mn -> on_grid r mx -> (mn <= mx)%Qc -> abound (o_act o2) mn -> abound (o_act o2) mx ->
    exists mn' mx', holds_range (l_paq (o_layer o4)) g mn' mx' /\ on_grid r mn' /\ on_grid r mx' /\ (mn' <= mx')%Qc /\
      forall v, abound (o_act o2) v -> (mn <= v)%Qc -> (v <= mx)%Qc -> (mn' <= v)%Qc /\ (v <= mx')%Qc.
Proof.
  intros O2 Hc HA H3 H4.
  assert (C : same_but_registers o2 o3 /\ obj_ok o3 /\ forall g r mn mx, g < ngroups (l_paq (o_layer o2)) -> frac_bits (l_paq (o_layer o2)) g r ->
    holds_range (l_paq (o_layer o2)) g mn mx -> on_grid r mn -> on_grid r mx -> (mn <= mx)%Qc ->
    exists mn' mx', holds_range (l_paq (o_layer o3)) g mn' mx' /\ on_grid r mn' /\ on_grid r mx' /\ (mn' <= mn)%Qc /\ (mx <= mx')%Qc).
  { destruct H3 as [->|H3]; [|exact (cover_spec pw ln2 c o2 o3 O2 Hc H3)]. split; [|split; [assumption|]].
    - exists (q_min (l_paq (o_layer o2))), (q_max (l_paq (o_layer o2))). destruct o2 as [[op q r lc out] rec a ins b]. unfold with_paq, with_layer. cbn. rewrite with_minmax_id. reflexivity.
    - intros g r mn mx _ _ H G1 G2 _. exists mn, mx. repeat split; try assumption; try apply Qcle_refl; apply H. }
  destruct C as [S3 [O3 C]]. destruct (fix_spec o3 o4 O3 H4) as [S4 [O4 F]]. pose proof (twin_sbr _ _ S3) as T3.
  split; [eapply twin_trans; [exact T3|apply twin_sbr, S4]|]. split; [assumption|].
  intros g r mn mx Hg Hr HR G1 G2 L A1 A2. destruct (C g r mn mx Hg Hr HR G1 G2 L) as [a [b [HR3 [Ga [Gb [La Lb]]]]]].
  assert (Hg3 : g < length (data (q_fbw (l_paq (o_layer o3))))). { destruct T3 as [[x [y E]] _]. rewrite E. exact Hg. }
  specialize (F g a b Hg3 HR3). pose proof (act_frac o2 g r HA Hg Hr) as R0. assert (EA : o_act o3 = o_act o2) by apply T3. rewrite EA in F.
  destruct (o_act o2); cbn [abound] in *.
  - exists (qz 0), (qz 1). split; [exact F|]. split; [apply grid_z, R0|]. split; [apply grid_z, R0|]. split; [qlra|]. intros v [V1 V2] _ _. auto.
  - exists (qmax a (qz 0)), (qmin b (qz 1)). split; [exact F|]. split; [apply qmax_grid; [assumption|apply grid_z, R0]|]. split; [apply qmin_grid; [assumption|apply grid_z, R0]|].
    split; [|intros v [V1 V2] Va Vb; split; [apply qmax_lub|apply qmin_glb]; qlra]. apply Qcle_trans with mn; [apply qmax_lub|apply qmin_glb]; qlra.
  - change (- qz 1)%Qc with (qz (-1)) in F.
    exists (qmax a (qz (-1))), (qmin b (qz 1)). split; [exact F|]. split; [apply qmax_grid; [assumption|apply grid_z, R0]|]. split; [apply qmin_grid; [assumption|apply grid_z, R0]|].
    split; [|intros v [V1 V2] Va Vb; split; [apply qmax_lub|apply qmin_glb]; qlra]. apply Qcle_trans with mn; [apply qmax_lub|apply qmin_glb]; qlra.
  - exists a, b. split; [exact F|]. repeat (split; [assumption|]). split; [qlra|]. intros v _ V1 V2. split; qlra.
  - exists a, b. split; [exact F|]. repeat (split; [assumption|]). split; [qlra|]. intros v _ V1 V2. split; qlra.
Qed.

(** ** Values recorded *)
Lemma ysamp_length l x : length (ysamp pw ln2 l x) = prodn (l_out l).
Proof. apply qsample_length. Qed.

Lemma visit_value o g v xs r : obj_ok o -> act_ok o -> g < ngroups (l_paq (o_layer o)) -> frac_bits (l_paq (o_layer o)) g r ->
  in_group (ngroups (l_paq (o_layer o))) g (ysamp pw ln2 (o_layer o) xs) v -> on_grid r v /\ abound (o_act o) v.
Proof.
  intros HO HA Hg Hr [j Hj]. set (e := j * ngroups (l_paq (o_layer o)) + g) in *.
  assert (He : e < prodn (l_out (o_layer o))). { rewrite <- (ysamp_length (o_layer o) xs). apply nth_error_Some. congruence. }
  apply (nth_error_nth _ _ (qz 0)) in Hj. unfold ysamp in Hj. rewrite qsample_nth in Hj by assumption.
  destruct HO as [L1 [L2 _]]. destruct L1 as [_ [L1 _]]. destruct (recordable_facts _ _ L2 L1) as [_ [_ [_ HG]]]. rewrite HG in Hj by assumption.
  replace (e mod ngroups (l_paq (o_layer o))) with g in Hj by (unfold e; rewrite Nat.add_comm, Nat.mod_add, Nat.mod_small by lia; reflexivity).
  pose proof (qval_quantized (l_paq (o_layer o)) _ (nth e (zfun pw ln2 (o_layer o) xs) (qz 0)) r Hr) as Q. rewrite Hj in Q.
  split; [eapply quantized_grid, Q|]. pose proof (act_frac o g r HA Hg Hr) as R0. unfold act_ok, bounded_fn in HA. unfold abound.
  assert (ZF : forall f, l_op (o_layer o) = Fn f -> zfun pw ln2 (o_layer o) xs = f xs). { intros f Ef. unfold zfun, pre_activation. rewrite Ef. reflexivity. }
  destruct (o_act o); try exact I; destruct HA as [f [Ef [HB _]]]; rewrite (ZF f Ef) in Q; destruct (HB xs e He) as [B1 B2];
    apply (attain (l_paq (o_layer o)) r _ v _ _ R0 Q B1 B2).
Qed.

Definition fresh_regs (q : hgq) : Prop := forall g, nth g (data (q_min q)) PosInf = PosInf /\ nth g (data (q_max q)) NegInf = NegInf.
Lemma nth_repeat_map {A B} (l : list A) (b : B) g : nth g (map (fun _ => b) l) b = b.
Proof. revert g. induction l as [|a l IH]; intros [|g]; cbn; auto. Qed.

Lemma regs_of o1 V o2 g : o_record o1 = true -> fresh_regs (l_paq (o_layer o1)) -> obj_rel o1 V o2 -> g < ngroups (l_paq (o_layer o1)) -> (exists v, V g v) ->
  exists mn mx, holds_range (l_paq (o_layer o2)) g mn mx /\ V g mn /\ V g mx /\ forall v, V g v -> (mn <= v)%Qc /\ (v <= mx)%Qc.
Proof.
  intros Hr HF [mn [mx [-> [_ [_ [_ [_ RS]]]]]]] Hg [v0 Hv0]. destruct (RS g Hg) as [[e1 [L1 E1]] [e2 [L2 E2]]]. destruct (HF g) as [F1 F2].
  rewrite F1 in E1. rewrite F2 in E2.
  destruct L1 as [[N _]|[a [[_ Ha] [-> La]]]]; [destruct (N v0); auto|]. destruct L2 as [[N _]|[b [[_ Hb] [-> Lb]]]]; [destruct (N v0); auto|].
  exists a, b. split; [split; [exact E1|exact E2]|]. split; [assumption|]. split; [assumption|]. intros v Hv. split; [apply La|apply Lb]; auto.
Qed.

(** ** The log of a run on one sample *)
Definition logged (st0 : store) (ext : visits) : Prop := forall i y, In (i, y) ext -> exists o xs, nth_error st0 i = Some o /\ y = ysamp pw ln2 (o_layer o) xs.
Lemma sem1_log st0 x ins log v log' : sem1 pw ln2 st0 x ins log = Ok (v, log') ->
  exists ext, log' = log ++ ext /\ logged st0 ext /\ forall i, hid (snd x) = Some i -> exists y, In (i, y) ext.
Proof.
  intros E. destruct x as [u k]. unfold sem1 in E. cbn [snd] in *.
  assert (N : log' = log -> hid k = None -> exists ext, log' = log ++ ext /\ logged st0 ext /\ forall i, hid k = Some i -> exists y, In (i, y) ext).
  { intros -> HN. exists []. rewrite app_nil_r. split; [reflexivity|]. split; [intros ? ? []|]. intros i Hi. congruence. }
  assert (O : forall i, hid k = Some i -> rbind (get st0 i) (fun o => if negb (sized_all (o_ins o) (map (fun s => [s]) ins)) then Raise
      else match ins with [] => Raise | _ => Ok (yout pw ln2 (o_layer o) ins, log ++ [(i, ysamp pw ln2 (o_layer o) ins)]) end) = Ok (v, log') ->
      exists ext, log' = log ++ ext /\ logged st0 ext /\ forall i, hid k = Some i -> exists y, In (i, y) ext).
  { intros i Hi Eo. apply rbind_ok in Eo. destruct Eo as [o [Eg Eo]]. apply get_ok in Eg. destruct (negb _); [discriminate|]. destruct ins as [|s0 ins0]; [discriminate|].
    injection Eo as _ <-. eexists. split; [reflexivity|]. split.
    - intros i' y [Hin|[]]. injection Hin as <- <-. eauto.
    - intros i' Hi'. replace i' with i by congruence. eexists. left. reflexivity. }
  destruct k as [i|i|c out|g|p| |g|q out|]; try (apply (O i eq_refl E)); try discriminate; apply N; try reflexivity;
    repeat match type of E with
      | rbind ?r _ = _ => destruct r; [cbn [rbind] in E|discriminate]
      | (if ?b then _ else _) = _ => destruct b; [|discriminate]
      | match ?l with [] => _ | _ => _ end = _ => destruct l; [discriminate|]
      end; injection E as _ <-; reflexivity.
Qed.

Lemma run_log st0 k : forall ins log outs log', run (sem1 pw ln2 st0) k ins log = Ok (outs, log') ->
  exists ext, log' = log ++ ext /\ logged st0 ext /\ match k with
    | Leaf x => forall i, hid (snd x) = Some i -> exists y, In (i, y) ext
    | Sub _ nodes _ => forall x ins' i, In (Leaf x, ins') nodes -> hid (snd x) = Some i -> exists y, In (i, y) ext
    end.
Proof.
  induction k as [x|nin nodes outs IH] using klayer_ind'; intros ins log os log' E.
  - cbn [run] in E. apply rbind_ok in E. destruct E as [[v l1] [E1 E]]. cbn [fst snd] in E. injection E as _ <-. eapply sem1_log, E1.
  - rewrite run_sub in E. destruct (Nat.eqb _ _); [|discriminate]. apply rbind_ok in E. destruct E as [[W l1] [EW E]]. cbn [fst snd] in E.
    apply rbind_ok in E. destruct E as [ys [_ E]]. injection E as _ <-.
    assert (N : forall ns vals log, (forall k i, In (k, i) ns -> In (k, i) nodes) -> run_nodes (sem1 pw ln2 st0) ns vals log = Ok (W, l1) ->
      exists ext, l1 = log ++ ext /\ logged st0 ext /\ forall x ins' i, In (Leaf x, ins') ns -> hid (snd x) = Some i -> exists y, In (i, y) ext).
    { induction ns as [|[k i] ns IHn]; intros vals lg Hin E0.
      - injection E0 as _ <-. exists []. rewrite app_nil_r. split; [reflexivity|]. split; [intros ? ? []|intros ? ? ? []].
      - rewrite run_nodes_cons in E0. apply rbind_ok in E0. destruct E0 as [xs [Ex E0]]. apply rbind_ok in E0. destruct E0 as [[o l2] [Eo E0]].
        cbn [fst snd] in E0. destruct (IH k i (Hin _ _ (or_introl eq_refl)) xs lg o l2 Eo) as [e1 [-> [H1 T1]]].
        destruct (IHn _ _ (fun k' i' H => Hin k' i' (or_intror H)) E0) as [e2 [-> [H2 T2]]]. exists (e1 ++ e2). rewrite app_assoc. split; [reflexivity|]. split.
        + intros i' y Hy. apply in_app_or in Hy. destruct Hy as [Hy|Hy]; [apply H1|apply H2]; assumption.
        + intros x ins' i' [Hx|Hx] Hi.
          * injection Hx as -> ->. destruct (T1 i' Hi) as [y Hy]. exists y. apply in_or_app. auto.
          * destruct (T2 x ins' i' Hx Hi) as [y Hy]. exists y. apply in_or_app. auto. }
    apply (N nodes _ log (fun _ _ H => H) EW).
Qed.

Lemma vis_facts st0 m s : runs pw ln2 st0 m s -> logged st0 (vis1 pw ln2 st0 m s) /\ forall i, In i (top_layers m) -> exists y, In (i, y) (vis1 pw ln2 st0 m s).
Proof.
  intros [[ys vis] E]. unfold vis1. rewrite E. destruct (run_log st0 m _ _ _ _ E) as [ext [Ee [HL HT]]]. cbn [app] in Ee. subst vis. split; [assumption|].
  intros i Hi. destruct m as [x|nin nodes outs]; [destruct Hi|]. cbn [top_layers] in Hi. apply nodup_In, in_flat_map in Hi. destruct Hi as [[k ins] [Hn Hi]].
  unfold node_hid in Hi. cbn [fst] in Hi. destruct k as [x|]; [|destruct Hi]. destruct (hid (snd x)) as [i'|] eqn:Eh; [|destruct Hi]. destruct Hi as [<-|[]].
  eapply HT; eassumption.
Qed.

(** ** Steps of trace_minmax *)
Lemma trace_steps eb m n ds bsz c st bops rs st' : Forall obj_ok st -> trace_minmax pw ln2 eb m ds bsz true c false st = Ok (bops, rs, st') ->
  dataset n ds -> leaves hgq_layer m -> 0 < bsz ->
  exists st1 st2, Forall obj_ok st1 /\ feed pw ln2 m (batches ds bsz) st1 = Ok (rs, st2) /\ Forall obj_ok st2 /\
  forall i, In i (top_layers m) -> exists o o1 o2 o3 o4 o', nth_error st i = Some o /\ nth_error st1 i = Some o1 /\ twin o o1 /\ o_record o1 = true /\
    fresh_regs (l_paq (o_layer o1)) /\ nth_error st2 i = Some o2 /\ (o3 = o2 \/ cover_obj pw ln2 c o2 = Ok o3) /\ fix_obj o3 = Ok o4 /\
    nth_error st' i = Some o' /\ o_layer o' = o_layer o4 /\ o_act o' = o_act o4 /\ o_ins o' = o_ins o4 /\ o_record o' = false.
Proof.
  intros HO E HD HL HB. unfold trace_minmax in E. apply rbind_ok in E. destruct E as [s1 [E1 E]]. destruct (Nat.eqb_spec bsz 0); [lia|].
  apply rbind_ok in E. destruct E as [[rs' s2] [E2 E]]. cbn [fst snd] in E. apply rbind_ok in E. destruct E as [s3 [E3 E]].
  apply rbind_ok in E. destruct E as [s4 [E4 E]]. apply rbind_ok in E. destruct E as [[b s5] [E5 E]]. cbn [fst snd] in E. injection E as -> <- <-.
  pose proof (start_step m true st s1 HO E1) as HO1. exists s1, s2. split; [assumption|]. split; [assumption|].
  split; [eapply feed_ok; eassumption|]. intros i Hi.
  destruct (each_spec _ _ (top_NoDup m) _ _ E1) as [_ [A1 _]]. destruct (A1 i Hi) as [o [o1 [Eo [Es Eo1]]]].
  destruct (each_spec _ _ (top_NoDup m) _ _ E4) as [_ [A4 _]]. destruct (A4 i Hi) as [o3 [o4 [Eo3 [Ef Eo4]]]].
  destruct (count_spec eb _ (top_NoDup m) _ _ _ E5) as [_ [A5 _]]. destruct (A5 i Hi) as [o4' [d [Eo4' Eo']]].
  assert (o4' = o4) by congruence. subst o4'.
  assert (X : exists o2, nth_error s2 i = Some o2 /\ (o3 = o2 \/ cover_obj pw ln2 c o2 = Ok o3)).
  { unfold cover_step in E3. destruct (qeqb c (qz 1)).
    - injection E3 as ->. eauto.
    - destruct (qltb _ _); [|discriminate]. destruct (each_spec _ _ (top_NoDup m) _ _ E3) as [_ [A3 _]]. destruct (A3 i Hi) as [o2 [o3' [Eo2 [Ec Eo3']]]].
      exists o2. split; [assumption|]. right. congruence. }
  destruct X as [o2 [Eo2 X]]. injection Es as <-.
  exists o, (with_record (reset_obj o) true), o2, o3, o4, (mkO (o_layer o4) false (o_act o4) (o_ins o4) d).
  repeat (split; [assumption|]). split; [|split; [reflexivity|split; [|repeat (split; [assumption|]); auto]]].
  - split; [|split; reflexivity]. eexists _, _. unfold reset_obj, with_paq, with_layer, with_record. cbn [o_layer]. unfold minmax_reg_reset. reflexivity.
  - intros g. unfold reset_obj, with_paq, with_layer, with_record, minmax_reg_reset. cbn [o_layer l_paq with_minmax q_min q_max tmap data].
    split; apply nth_repeat_map.
Qed.
End T.
