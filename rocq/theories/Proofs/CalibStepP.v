(** Calibration in several steps (C67). *)
From Coq Require Import ZArith Qcanon List Bool String Lia.
From Verif Require Import Base.Num Base.NumFacts Base.Tensor Model.FixedPoint Model.Quantizer Model.Layers Model.Graph
  Model.Convert Model.Trace Spec.Fixed Spec.Quant Spec.History Spec.Layer Spec.Trace Spec.Calib Proofs.TensorP Proofs.QuantizerP Proofs.RecordP
  Proofs.HistoryP Proofs.CallP Proofs.SampleP Proofs.LayersP Proofs.ConvertP Proofs.TraceP Proofs.FeedP Proofs.TraceMinmaxP Proofs.CoverP
  Proofs.TraceMoreP Proofs.ProxyModelP Proofs.CalibP.
Import ListNotations.
Local Open Scope nat_scope.

(** ** The correction of bounded activations as a function of the registers *)
Definition fx_lo (a : act) (e : ext) : ext :=
  match a with ASoftmax => Fin (qz 0) | ASigmoid => ext_max e (Fin (qz 0)) | ATanh => ext_max e (Fin (- qz 1)%Qc) | ALinear | AOther => e end.
Definition fx_hi (a : act) (e : ext) : ext :=
  match a with ASoftmax => Fin (qz 1) | ASigmoid | ATanh => ext_min e (Fin (qz 1)) | ALinear | AOther => e end.
Lemma tmap_id {A} (t : tensor A) : tmap (fun e => e) t = t.
Proof. destruct t. unfold tmap. cbn. rewrite map_id. reflexivity. Qed.
Lemma fix_form o : fix_obj o = Ok (obj_mm o (tmap (fx_lo (o_act o)) (q_min (l_paq (o_layer o)))) (tmap (fx_hi (o_act o)) (q_max (l_paq (o_layer o))))).
Proof.
  unfold fix_obj. f_equal. destruct (o_act o); try reflexivity;
    change (fx_lo _) with (fun e : ext => e); change (fx_hi _) with (fun e : ext => e); rewrite !tmap_id, obj_mm_id; reflexivity.
Qed.
Lemma ext_le_antisym a b : ext_le a b -> ext_le b a -> a = b.
Proof. destruct a, b; cbn; try tauto. intros H K. f_equal. apply Qcle_antisym; assumption. Qed.
Lemma ext_min_max_absorb e x c : ext_max (ext_min e (ext_max x c)) c = ext_max (ext_min e x) c.
Proof.
  apply ext_le_antisym.
  - apply ext_max_lub; [|apply ext_max_r]. unfold ext_max at 1. destruct (ext_leb x c) eqn:E.
    + eapply ext_le_trans; [apply ext_min_r|apply ext_max_r].
    + apply ext_max_l.
  - apply ext_max_mono; [|apply ext_le_refl]. apply ext_min_mono; [apply ext_le_refl|apply ext_max_l].
Qed.
Lemma ext_max_min_absorb e x c : ext_min (ext_max e (ext_min x c)) c = ext_min (ext_max e x) c.
Proof.
  apply ext_le_antisym.
  - apply ext_min_mono; [|apply ext_le_refl]. apply ext_max_mono; [apply ext_le_refl|apply ext_min_l].
  - apply ext_min_glb; [|apply ext_min_r]. unfold ext_min at 2. destruct (ext_leb x c) eqn:E.
    + apply ext_min_l.
    + eapply ext_le_trans; [apply ext_min_r|]. apply ext_max_r.
Qed.
Lemma fx_lo_step a e x : fx_lo a (ext_min e (fx_lo a x)) = fx_lo a (ext_min e x).
Proof. destruct a; cbn [fx_lo]; try reflexivity; apply ext_min_max_absorb. Qed.
Lemma fx_hi_step a e x : fx_hi a (ext_max e (fx_hi a x)) = fx_hi a (ext_max e x).
Proof. destruct a; cbn [fx_hi]; try reflexivity; apply ext_max_min_absorb. Qed.

Lemma obj_mm_mm o a b c d : obj_mm (obj_mm o a b) c d = obj_mm o c d.
Proof. reflexivity. Qed.

Section M.
Variables (pw : Qc -> Qc) (ln2 : Qc).

Definition regs_only (st st' : store) : Prop :=
  length st' = length st /\ forall i o, nth_error st i = Some o -> exists mn mx, nth_error st' i = Some (obj_mm o mn mx).
Lemma regs_sem st st' : regs_only st st' -> forall x vs log, sem1 pw ln2 st' x vs log = sem1 pw ln2 st x vs log.
Proof.
  intros [L H] [u k] vs log.
  assert (G : forall i, rbind (get st' i) (fun o => if negb (sized_all (o_ins o) (map (fun s => [s]) vs)) then Raise
        else match vs with [] => Raise | _ => Ok (yout pw ln2 (o_layer o) vs, log ++ [(i, ysamp pw ln2 (o_layer o) vs)]) end) =
      rbind (get st i) (fun o => if negb (sized_all (o_ins o) (map (fun s => [s]) vs)) then Raise
        else match vs with [] => Raise | _ => Ok (yout pw ln2 (o_layer o) vs, log ++ [(i, ysamp pw ln2 (o_layer o) vs)]) end)).
  { intros i. unfold get. destruct (nth_error st i) as [o|] eqn:E.
    - destruct (H i o E) as [mn [mx ->]]. cbn [rbind]. unfold obj_mm, with_layer. cbn [o_ins o_layer]. rewrite yout_mm, ysamp_mm. reflexivity.
    - apply nth_error_None in E. rewrite <- L in E. apply nth_error_None in E. rewrite E. reflexivity. }
  unfold sem1. cbn [snd]. destruct k; try reflexivity; apply G.
Qed.
Lemma leaves_all {L} (P : L -> Prop) k : (forall x, P x) -> leaves P k.
Proof. intros H. induction k as [x|nin nodes outs IH] using klayer_ind'; constructor; auto. Qed.
Lemma regs_run st st' m ins log : regs_only st st' -> run (sem1 pw ln2 st') m ins log = run (sem1 pw ln2 st) m ins log.
Proof. intros H. apply run_ext, leaves_all. intros x. apply regs_sem, H. Qed.
Lemma regs_grp st st' i g y v : regs_only st st' -> grp st' i g y v <-> grp st i g y v.
Proof.
  intros [L H]. unfold grp. split; intros [o [E I]].
  - destruct (nth_error st i) as [o0|] eqn:E0; [|apply nth_error_None in E0; apply nth_error_lt in E; lia].
    destruct (H i o0 E0) as [mn [mx E']]. rewrite E' in E. exists o0. split; [reflexivity|]. assert (o = obj_mm o0 mn mx) by congruence. subst o. exact I.
  - destruct (H i o E) as [mn [mx E']]. eexists. split; [exact E'|]. exact I.
Qed.
Lemma rel_regs st0 V st : rel st0 V st -> regs_only st0 st.
Proof. intros [L H]. split; [assumption|]. intros i o E. destruct (H i o E) as [o' [E' [mn [mx [-> _]]]]]. eauto. Qed.
Lemma regs_trans a b c : regs_only a b -> regs_only b c -> regs_only a c.
Proof. intros [L H] [L' H']. split; [congruence|]. intros i o E. destruct (H i o E) as [mn [mx E']]. destruct (H' i _ E') as [mn' [mx' E'']]. exists mn', mx'. exact E''. Qed.
Lemma fix_regs ids s s' : NoDup ids -> each fix_obj ids s = Ok s' -> regs_only s s'.
Proof.
  intros ND E. destruct (each_spec fix_obj ids ND s s' E) as [L [A B]]. split; [assumption|]. intros i o Eo. destruct (in_dec Nat.eq_dec i ids) as [Hi|Hi].
  - destruct (A i Hi) as [p [p' [P1 [P2 P3]]]]. rewrite fix_form in P2. assert (p = o) by congruence. subst p. rewrite P3. injection P2 as <-. eauto.
  - rewrite (B i Hi). exists (q_min (l_paq (o_layer o))), (q_max (l_paq (o_layer o))). rewrite obj_mm_id. assumption.
Qed.

(** The registers of object i after feeding and the correction. *)
Definition fx (ids : list nat) (i : nat) (a : act) : (ext -> ext) * (ext -> ext) :=
  if in_dec Nat.eq_dec i ids then (fx_lo a, fx_hi a) else (fun e => e, fun e => e).
Lemma fix_at ids s s' i o : NoDup ids -> each fix_obj ids s = Ok s' -> nth_error s i = Some o ->
  nth_error s' i = Some (obj_mm o (tmap (fst (fx ids i (o_act o))) (q_min (l_paq (o_layer o)))) (tmap (snd (fx ids i (o_act o))) (q_max (l_paq (o_layer o))))).
Proof.
  intros ND E Eo. destruct (each_spec fix_obj ids ND s s' E) as [L [A B]]. unfold fx. destruct (in_dec Nat.eq_dec i ids) as [Hi|Hi]; cbn [fst snd].
  - destruct (A i Hi) as [p [p' [P1 [P2 P3]]]]. rewrite fix_form in P2. assert (p = o) by congruence. subst p. rewrite P3. congruence.
  - rewrite (B i Hi), !tmap_id, obj_mm_id. assumption.
Qed.

Lemma two_steps m n1 d1 b1 n2 d2 b2 n d b st1 r1 s2 s4 r2 t2 t4 : Forall obj_ok st1 -> leaves hgq_layer m -> dataset n1 d1 -> dataset n2 d2 -> dataset n d ->
  0 < b1 -> 0 < b2 -> 0 < b -> (forall s, In s (all_samples n d) <-> In s (all_samples n1 d1) \/ In s (all_samples n2 d2)) ->
  feed pw ln2 m (batches d1 b1) st1 = Ok (r1, s2) -> each fix_obj (top_layers m) s2 = Ok s4 ->
  feed pw ln2 m (batches d2 b2) s4 = Ok (r2, t2) -> each fix_obj (top_layers m) t2 = Ok t4 ->
  exists r u2, feed pw ln2 m (batches d b) st1 = Ok (r, u2) /\ each fix_obj (top_layers m) u2 = Ok t4.
Proof.
  intros Hok Hl H1 H2 H B1 B2 B HU E1 F1 E2 F2.
  pose proof (rel_refl st1 (fun _ _ _ => False) ltac:(auto)) as R0.
  pose proof (feed_spec pw ln2 st1 m n1 d1 b1 st1 _ Hok Hl H1 B1 R0) as X1. rewrite E1 in X1. destruct X1 as [A1 [X1 _]].
  pose proof (feed_ok pw ln2 m n1 d1 b1 st1 r1 s2 Hok Hl H1 B1 E1) as O2.
  assert (O4 : Forall obj_ok s4) by (eapply each_forall; [apply top_NoDup|exact O2| |exact F1]; intros o o' P Q; apply (fix_spec o o' P Q)).
  pose proof (rel_refl s4 (fun _ _ _ => False) ltac:(auto)) as R4.
  pose proof (feed_spec pw ln2 s4 m n2 d2 b2 s4 _ O4 Hl H2 B2 R4) as X2. rewrite E2 in X2. destruct X2 as [A2 [X2 _]].
  assert (RO : regs_only st1 s4) by (eapply regs_trans; [eapply rel_regs, X1|eapply fix_regs; [apply top_NoDup|exact F1]]).
  pose proof (feed_spec pw ln2 st1 m n d b st1 _ Hok Hl H B R0) as X.
  destruct (feed pw ln2 m (batches d b) st1) as [[r u2]|].
  2: { exfalso. destruct X as [s [Hs Es]]. apply HU in Hs. rewrite Forall_forall in A1, A2. destruct Hs as [Hs|Hs].
       - destruct (A1 s Hs) as [y Ey]. congruence.
       - destruct (A2 s Hs) as [y Ey]. rewrite (regs_run st1 s4 m s [] RO) in Ey. congruence. }
  destruct X as [_ [X _]]. exists r, u2. split; [reflexivity|].
  assert (LU : length u2 = length st1) by apply X.
  destruct (each_ok fix_obj (top_layers m) u2 (top_NoDup m)) as [u4 F4].
  { intros i Hi. destruct (each_spec fix_obj _ (top_NoDup m) s2 s4 F1) as [_ [A _]]. destruct (A i Hi) as [o [_ [Eo _]]].
    destruct (nth_error u2 i) as [o'|] eqn:E'; [eexists o', _; split; [reflexivity|apply fix_form]|]. apply nth_error_None in E'. apply nth_error_lt in Eo. destruct X1 as [L1 _]. lia. }
  rewrite F4. f_equal. destruct X as [_ X], X1 as [L1 X1], X2 as [L2 X2].
  pose proof (fix_regs _ _ _ (top_NoDup m) F4) as [L4 _]. pose proof (fix_regs _ _ _ (top_NoDup m) F2) as [LT4 _]. pose proof (fix_regs _ _ _ (top_NoDup m) F1) as [LS4 _].
  apply nth_error_ext; [congruence|]. intros i x y Ex Ey. assert (Hi : i < length st1) by (apply nth_error_lt in Ex; lia).
  destruct (nth_error st1 i) as [o|] eqn:Eo; [|apply nth_error_None in Eo; lia].
  destruct (X i o Eo) as [u [Eu [mnu [mxu [-> SU]]]]]. destruct (X1 i o Eo) as [p [Ep [mn1 [mx1 [-> S1]]]]].
  pose proof (fix_at _ _ _ i _ (top_NoDup m) F1 Ep) as Ep4. destruct (X2 i _ Ep4) as [q [Eq [mn2 [mx2 [-> S2]]]]].
  pose proof (fix_at _ _ _ i _ (top_NoDup m) F2 Eq) as Eq4. pose proof (fix_at _ _ _ i _ (top_NoDup m) F4 Eu) as Eu4.
  rewrite Eq4 in Ey. rewrite Eu4 in Ex. apply (f_equal (fun v => match v with Some w => w | None => x end)) in Ex. apply (f_equal (fun v => match v with Some w => w | None => y end)) in Ey. cbv beta iota in Ex, Ey. subst x y.
  rewrite !obj_mm_mm. unfold obj_mm, with_layer in S2 |- *. cbn [o_layer o_act o_record set_mm l_paq with_minmax q_min q_max] in S2 |- *.
  set (q := l_paq (o_layer o)) in *. set (lo := fst (fx (top_layers m) i (o_act o))) in *. set (hi := snd (fx (top_layers m) i (o_act o))) in *.
  assert (LO : forall e x, lo (ext_min e (lo x)) = lo (ext_min e x)). { unfold lo, fx. destruct (in_dec _ _ _); cbn [fst]; intros; [apply fx_lo_step|reflexivity]. }
  assert (HI : forall e x, hi (ext_max e (hi x)) = hi (ext_max e x)). { unfold hi, fx. destruct (in_dec _ _ _); cbn [snd]; intros; [apply fx_hi_step|reflexivity]. }
  assert (OK : obj_ok o) by (rewrite Forall_nth_error in Hok; eapply Hok, Eo). destruct (obj_ok_len o OK) as [N1 N2]. fold q in N1, N2.
  assert (VU : forall g v, vall pw ln2 st1 m (fun _ _ _ => False) (map (sample_of d) (seq 0 n)) i g v <->
      vall pw ln2 s4 m (fun _ _ _ => False) (map (sample_of d2) (seq 0 n2)) i g v \/ vall pw ln2 st1 m (fun _ _ _ => False) (map (sample_of d1) (seq 0 n1)) i g v).
  { intros g v. unfold vall, vis1. split.
    - intros [[]|[s [z [Hs [Hz Hg]]]]]. apply HU in Hs. destruct Hs as [Hs|Hs].
      + right. right. exists s, z. auto.
      + left. right. exists s, z. rewrite (regs_run st1 s4 m s [] RO), (regs_grp st1 s4 _ _ _ _ RO). auto.
    - intros [[[]|[s [z [Hs [Hz Hg]]]]]|[[]|[s [z [Hs [Hz Hg]]]]]]; right; exists s, z.
      + rewrite (regs_run st1 s4 m s [] RO) in Hz. rewrite (regs_grp st1 s4 _ _ _ _ RO) in Hg. split; [apply HU; auto|auto].
      + split; [apply HU; auto|auto]. }
  unfold reg_step in SU, S1, S2. cbn [q_min q_max with_minmax] in S2.
  destruct SU as [SU1 [SU2 [SU3 [SU4 SU]]]]. destruct S1 as [S11 [S12 [S13 [S14 S1]]]]. destruct S2 as [S21 [S22 [S23 [S24 S2]]]].
  cbn [tmap shape data] in S21, S22, S23, S24. rewrite map_length in S22, S24.
  change (ngroups (with_minmax q (tmap lo mn1) (tmap hi mx1))) with (ngroups q) in S2.
  enough (EQ : tmap lo mnu = tmap lo mn2 /\ tmap hi mxu = tmap hi mx2) by (destruct EQ as [-> ->]; reflexivity). split.
  - apply tensor_eq; cbn [tmap shape data]; [congruence|]. apply (list_nth_ext PosInf); [rewrite !map_length; congruence|]. intros g Hg. rewrite map_length in Hg.
    change (map lo (data mnu)) with (data (tmap lo mnu)). change (map lo (data mn2)) with (data (tmap lo mn2)). rewrite !nth_tmap by congruence.
    assert (Hg' : g < ngroups q) by congruence. destruct (SU g Hg') as [[e [Le ->]] _]. destruct (S1 g Hg') as [[e1 [Le1 E1']] _]. destruct (S2 g Hg') as [[e2 [Le2 ->]] _].
    rewrite nth_tmap by congruence. rewrite LO, E1', ext_min_assoc. f_equal. f_equal.
    eapply least_unique; [|exact Le|exact (least_union _ _ _ _ Le2 Le1)]. intros v. cbn beta. rewrite (VU g v). tauto.
  - apply tensor_eq; cbn [tmap shape data]; [congruence|]. apply (list_nth_ext NegInf); [rewrite !map_length; congruence|]. intros g Hg. rewrite map_length in Hg.
    change (map hi (data mxu)) with (data (tmap hi mxu)). change (map hi (data mx2)) with (data (tmap hi mx2)). rewrite !nth_tmap by congruence.
    assert (Hg' : g < ngroups q) by congruence. destruct (SU g Hg') as [_ [e [Le ->]]]. destruct (S1 g Hg') as [_ [e1 [Le1 E1']]]. destruct (S2 g Hg') as [_ [e2 [Le2 ->]]].
    rewrite nth_tmap by congruence. rewrite HI, E1', ext_max_assoc. f_equal. f_equal.
    eapply greatest_unique; [|exact Le|exact (greatest_union _ _ _ _ Le2 Le1)]. intros v. cbn beta. rewrite (VU g v). tauto.
Qed.

Lemma trace_steps eb m n1 d1 b1 n2 d2 b2 n d b rst nb st k r1 s1 bops r2 s2 : Forall obj_ok st -> leaves hgq_layer m -> dataset n1 d1 -> dataset n2 d2 -> dataset n d ->
  0 < b1 -> 0 < b2 -> 0 < b -> (forall s, In s (all_samples n d) <-> In s (all_samples n1 d1) \/ In s (all_samples n2 d2)) ->
  trace_minmax pw ln2 eb m d1 b1 rst (qz 1) true st = Ok (k, r1, s1) -> trace_minmax pw ln2 eb m d2 b2 false (qz 1) nb s1 = Ok (bops, r2, s2) ->
  exists r, trace_minmax pw ln2 eb m d b rst (qz 1) nb st = Ok (bops, r, s2).
Proof.
  intros Hok Hl H1 H2 H B1 B2 B HU T1 T2.
  destruct (trace_split pw ln2 eb m d1 b1 rst (qz 1) true st k r1 s1 B1 T1) as [x4 [[x1 [x2 [x3 [X1 [X2 [X3 X4]]]]]] [_ ->]]].
  destruct (trace_split pw ln2 eb m d2 b2 false (qz 1) nb x4 bops r2 s2 B2 T2) as [y4 [[y1 [y2 [y3 [Y1 [Y2 [Y3 Y4]]]]]] C]].
  unfold cover_step in X3, Y3. change (qeqb (qz 1) (qz 1)) with true in X3, Y3. injection X3 as <-. injection Y3 as <-. injection Y1 as <-.
  pose proof (start_step m rst st x1 Hok X1) as O1.
  destruct (two_steps m n1 d1 b1 n2 d2 b2 n d b x1 r1 x2 x4 r2 y2 y4 O1 Hl H1 H2 H B1 B2 B HU X2 X4 Y2 Y4) as [r [u2 [F G]]].
  exists r. unfold trace_minmax. rewrite X1. cbn [rbind]. rewrite (proj2 (Nat.eqb_neq b 0)) by lia. rewrite F. cbn [rbind fst snd].
  unfold cover_step. change (qeqb (qz 1) (qz 1)) with true. cbn [rbind]. rewrite G. cbn [rbind]. destruct nb.
  - destruct C as [-> ->]. reflexivity.
  - rewrite C. reflexivity.
Qed.
End M.
