(** Lemmas about calibrating from scratch. *)
From Coq Require Import ZArith Qcanon List Bool Lia.
From Verif Require Import Base.Num Base.Tensor Base.Compute Model.FixedPoint Model.Quantizer Model.Layers Model.Graph Model.Trace Spec.Trace Spec.Recalibrate
  Proofs.CallP Proofs.ConvertP Proofs.ProxyTraceP Proofs.TraceP Proofs.FeedP Proofs.TraceMinmaxP Proofs.CoverP Proofs.TraceMoreP.
Import ListNotations.
Local Open Scope nat_scope.

Definition nobs : store -> store := map without_bops.
Definition on_snd {A} (r : result (A * store)) : result (A * store) := rmap (fun p => (fst p, nobs (snd p))) r.

Lemma get_nobs st i : get (nobs st) i = rmap without_bops (get st i).
Proof. unfold get, nobs. rewrite nth_error_map. destruct (nth_error st i); reflexivity. Qed.
Lemma set_nobs st i o : nobs (set_nth st i o) = set_nth (nobs st) i (without_bops o).
Proof. unfold nobs. revert i. induction st as [|a st IH]; intros [|i]; cbn; [reflexivity..|]. rewrite IH. reflexivity. Qed.

Section P.
  Variable pw : Qc -> Qc.
  Variable ln2 : Qc.

  Lemma call_obj_nobs i ins st : call_obj pw ln2 i ins (nobs st) = on_snd (call_obj pw ln2 i ins st).
  Proof.
    unfold call_obj. rewrite get_nobs. destruct (get st i) as [o|]; cbn [rmap rbind]; [|reflexivity].
    cbn [without_bops o_ins o_layer o_record]. destruct (negb _); [reflexivity|]. destruct (zip_samples ins) as [xs|]; cbn [rbind]; [|reflexivity].
    destruct (hforward pw ln2 (o_layer o) xs false (o_record o) _ _ _) as [[y l]|]; cbn [rbind fst snd]; [|reflexivity].
    unfold on_snd. cbn [rmap fst snd]. rewrite set_nobs. reflexivity.
  Qed.
  Lemma call_layer_nobs x ins st : call_layer pw ln2 x ins (nobs st) = on_snd (call_layer pw ln2 x ins st).
  Proof.
    unfold call_layer. destruct (snd x); try apply call_obj_nobs;
      try (destruct (one ins) as [b|]; cbn [rbind]; [|reflexivity]); try reflexivity.
    - destruct (sized out b); reflexivity.
    - destruct (zip_samples ins); reflexivity.
    - destruct (zip_samples ins); reflexivity.
    - destruct (negb _); [reflexivity|]. destruct (fpq_call q false _); reflexivity.
  Qed.
  Lemma run_nobs k : forall ins st, run (call_layer pw ln2) k ins (nobs st) = on_snd (run (call_layer pw ln2) k ins st).
  Proof.
    induction k as [x|nin nodes outs IH] using klayer_ind'; intros ins st.
    - cbn [run]. rewrite call_layer_nobs. destruct (call_layer pw ln2 x ins st) as [[v s]|]; reflexivity.
    - rewrite !run_sub. destruct (Nat.eqb (length ins) nin); [|reflexivity].
      assert (N : forall ns vals st, (forall k i, In (k, i) ns -> In (k, i) nodes) ->
        run_nodes (call_layer pw ln2) ns vals (nobs st) = on_snd (run_nodes (call_layer pw ln2) ns vals st)).
      { induction ns as [|[k i] ns IHn]; intros vs s Hin; cbn [run_nodes]; [reflexivity|].
        destruct (rseq (map (pick vs) i)) as [xs|]; cbn [rbind]; [|reflexivity].
        rewrite (IH k i (Hin _ _ (or_introl eq_refl))). destruct (run (call_layer pw ln2) k xs s) as [[o s2]|]; cbn [on_snd rmap rbind fst snd]; [|reflexivity].
        apply IHn. intros k' i' H. apply Hin. right. assumption. }
      rewrite N by auto. destruct (run_nodes _ _ _ st) as [[W s]|]; cbn [on_snd rmap rbind fst snd]; [|reflexivity].
      destruct (rseq (map (pick W) outs)); reflexivity.
  Qed.
  Lemma feed_nobs m bs : forall st, feed pw ln2 m bs (nobs st) = on_snd (feed pw ln2 m bs st).
  Proof.
    induction bs as [|b bs IH]; intros st; cbn [feed]; [reflexivity|]. unfold call_model. rewrite run_nobs.
    destruct (run (call_layer pw ln2) m b st) as [[y s]|]; cbn [on_snd rmap rbind fst snd]; [|reflexivity].
    rewrite IH. destruct (feed pw ln2 m bs s) as [[r s']|]; reflexivity.
  Qed.
  Lemma each_nobs f : (forall o, f (without_bops o) = rmap without_bops (f o)) -> forall ids st, each f ids (nobs st) = rmap nobs (each f ids st).
  Proof.
    intros H. induction ids as [|i ids IH]; intros st; cbn [each]; [reflexivity|]. rewrite get_nobs. destruct (get st i) as [o|]; cbn [rmap rbind]; [|reflexivity].
    rewrite H. destruct (f o) as [o'|]; cbn [rmap rbind]; [|reflexivity]. rewrite <- set_nobs. apply IH.
  Qed.
  Lemma cover_nobs c o : cover_obj pw ln2 c (without_bops o) = rmap without_bops (cover_obj pw ln2 c o).
  Proof.
    unfold cover_obj. cbn [without_bops o_layer]. destruct (finite (q_min _)) as [mn|]; cbn [rbind]; [|reflexivity]. destruct (finite (q_max _)) as [mx|]; cbn [rbind]; [|reflexivity].
    destruct (bmap2 _ _ _ mn mx) as [a|]; cbn [rbind]; [|reflexivity]. destruct (bmap2 _ _ _ mn mx) as [b|]; cbn [rbind]; [|reflexivity].
    destruct (call _ _ _ a _ _ _) as [r1|]; cbn [rbind]; [|reflexivity]. destruct (assign _ (fst r1)) as [a'|]; cbn [rbind]; [|reflexivity].
    destruct (call _ _ _ b _ _ _) as [r2|]; cbn [rbind]; [|reflexivity]. destruct (assign _ (fst r2)) as [b'|]; reflexivity.
  Qed.
  Lemma fix_nobs o : fix_obj (without_bops o) = rmap without_bops (fix_obj o).
  Proof. unfold fix_obj. cbn [without_bops o_layer o_act]. destruct (o_act o); reflexivity. Qed.
  Lemma cover_step_nobs m c st : cover_step pw ln2 m c (nobs st) = rmap nobs (cover_step pw ln2 m c st).
  Proof. unfold cover_step. destruct (qeqb c (qz 1)); [reflexivity|]. destruct (qltb _ _); [|reflexivity]. apply each_nobs, cover_nobs. Qed.

  (** Nothing but [count_bops] changes a bops variable. *)
  Lemma set_bops (st : store) i o o0 : nth_error st i = Some o0 -> o_bops o = o_bops o0 -> map o_bops (set_nth st i o) = map o_bops st.
  Proof.
    revert i. induction st as [|a st IH]; intros [|i] H E; cbn in *; try discriminate.
    - injection H as ->. rewrite E. reflexivity.
    - rewrite (IH i H E). reflexivity.
  Qed.
  Lemma call_layer_bops x ins st v st' : call_layer pw ln2 x ins st = Ok (v, st') -> map o_bops st' = map o_bops st.
  Proof.
    assert (O : forall i, call_obj pw ln2 i ins st = Ok (v, st') -> map o_bops st' = map o_bops st).
    { intros i H. unfold call_obj in H. apply rbind_ok in H as [o [Ho H]]. apply get_ok in Ho. destruct (negb _); [discriminate|]. apply rbind_ok in H as [xs [_ H]].
      apply rbind_ok in H as [[y l] [_ H]]. injection H as _ <-. apply (set_bops st i _ o Ho). reflexivity. }
    unfold call_layer. destruct (snd x); intros H; try (eapply O, H; fail);
      try (apply rbind_ok in H as [b [_ H]]).
    - destruct (sized out b); [|discriminate]. congruence.
    - congruence.
    - congruence.
    - congruence.
    - congruence.
    - destruct (negb _); [discriminate|]. apply rbind_ok in H as [y [_ H]]. congruence.
    - congruence.
  Qed.
  Lemma run_bops k : forall ins st ys st', run (call_layer pw ln2) k ins st = Ok (ys, st') -> map o_bops st' = map o_bops st.
  Proof.
    induction k as [x|nin nodes outs IH] using klayer_ind'; intros ins st ys st' E.
    - cbn [run] in E. apply rbind_ok in E as [[v s] [E1 E]]. injection E as _ <-. exact (call_layer_bops _ _ _ _ _ E1).
    - rewrite run_sub in E. destruct (Nat.eqb (length ins) nin); [|discriminate].
      apply rbind_ok in E as [[W s1] [EW E]]. apply rbind_ok in E as [ys' [_ E]]. injection E as _ <-. cbn [snd].
      assert (N : forall ns vals st W s1, (forall k i, In (k, i) ns -> In (k, i) nodes) -> run_nodes (call_layer pw ln2) ns vals st = Ok (W, s1) -> map o_bops s1 = map o_bops st).
      { induction ns as [|[k i] ns IHn]; intros vs s W' s' Hin E0; cbn [run_nodes] in E0.
        - injection E0 as _ <-. reflexivity.
        - apply rbind_ok in E0 as [xs [_ E0]]. apply rbind_ok in E0 as [[o s2] [Eo E0]]. cbn [fst snd] in E0.
          apply (IH k i (Hin _ _ (or_introl eq_refl))) in Eo. rewrite <- Eo. eapply IHn; [|exact E0]. intros k' i' H. apply Hin. right. assumption. }
      eapply N; [|exact EW]. auto.
  Qed.
  Lemma feed_bops m bs : forall st rs st', feed pw ln2 m bs st = Ok (rs, st') -> map o_bops st' = map o_bops st.
  Proof.
    induction bs as [|b bs IH]; intros st rs st' E; cbn [feed] in E.
    - injection E as _ <-. reflexivity.
    - apply rbind_ok in E as [[y s1] [E1 E]]. apply rbind_ok in E as [[r s2] [E2 E]]. injection E as _ <-. cbn [snd] in *.
      rewrite (IH _ _ _ E2). exact (run_bops _ _ _ _ _ E1).
  Qed.
  Lemma each_bops f : (forall o o', f o = Ok o' -> o_bops o' = o_bops o) -> forall ids st st', each f ids st = Ok st' -> map o_bops st' = map o_bops st.
  Proof.
    intros H. induction ids as [|i ids IH]; intros st st' E; cbn [each] in E; [injection E as <-; reflexivity|].
    apply rbind_ok in E as [o [Eo E]]. apply get_ok in Eo. apply rbind_ok in E as [o' [Eo' E]]. rewrite (IH _ _ E). apply (set_bops st i _ o Eo). exact (H _ _ Eo').
  Qed.
  Lemma cover_bops c o o' : cover_obj pw ln2 c o = Ok o' -> o_bops o' = o_bops o.
  Proof. unfold cover_obj. intros H. do 8 (apply rbind_ok in H as [? [_ H]]). injection H as <-. reflexivity. Qed.
  Lemma fix_bops o o' : fix_obj o = Ok o' -> o_bops o' = o_bops o.
  Proof. unfold fix_obj. destruct (o_act o); intros H; injection H as <-; reflexivity. Qed.
  Lemma cover_step_bops m c st st' : cover_step pw ln2 m c st = Ok st' -> map o_bops st' = map o_bops st.
  Proof.
    unfold cover_step. destruct (qeqb c (qz 1)); [intros H; injection H as <-; reflexivity|]. destruct (qltb _ _); [|discriminate]. apply each_bops, cover_bops.
  Qed.

  (** ** Resetting *)
  Lemma start_same o o' : same_training o o' -> forall a a', start_obj o = Ok a -> start_obj o' = Ok a' -> without_bops a = without_bops a'.
  Proof.
    intros (E1 & E2 & mn & mx & E3) a a' H H'. injection H as <-. injection H' as <-. unfold without_bops, with_record, reset_obj, with_paq, with_layer. cbn [o_layer o_record o_act o_ins].
    rewrite E1, E2, E3. reflexivity.
  Qed.
  Lemma same_nobs (st st' : store) : length st' = length st -> (forall i o o', nth_error st i = Some o -> nth_error st' i = Some o' -> without_bops o = without_bops o') -> nobs st = nobs st'.
  Proof.
    intros L H. unfold nobs. apply nth_error_ext; [rewrite !map_length; auto|]. intros i x y. rewrite !nth_error_map.
    destruct (nth_error st i) as [o|] eqn:E; [|discriminate]. destruct (nth_error st' i) as [o'|] eqn:E'; [|discriminate].
    cbn. intros A B. specialize (H i o o' E E'). congruence.
  Qed.
  Lemma each_start m st st' : same_model m st st' ->
    match each start_obj (top_layers m) st, each start_obj (top_layers m) st' with
    | Ok s, Ok s' => nobs s = nobs s' /\ forall i, ~ In i (top_layers m) -> nth_error s i = nth_error s' i
    | Raise, Raise => True
    | _, _ => False
    end.
  Proof.
    intros [L H].
    assert (T : forall s s' : store, length s' = length s -> forall a, each start_obj (top_layers m) s = Ok a -> exists a', each start_obj (top_layers m) s' = Ok a').
    { intros s s' EL a E. apply each_ok; [apply top_NoDup|]. intros i Hi. destruct (each_spec _ _ (top_NoDup m) _ _ E) as [_ [A _]]. destruct (A i Hi) as (o & _ & E1 & _).
      apply nth_error_lt in E1. destruct (nth_error s' i) as [o'|] eqn:E'; [|apply nth_error_None in E'; lia]. exists o', (with_record (reset_obj o') true). split; reflexivity. }
    destruct (each start_obj (top_layers m) st) as [s|] eqn:E; destruct (each start_obj (top_layers m) st') as [s'|] eqn:E'; [| | |exact I].
    - destruct (each_spec _ _ (top_NoDup m) _ _ E) as (L1 & A1 & B1). destruct (each_spec _ _ (top_NoDup m) _ _ E') as (L2 & A2 & B2).
      split.
      + apply same_nobs; [lia|]. intros i o o' Ho Ho'. destruct (in_dec Nat.eq_dec i (top_layers m)) as [Hi|Hi].
        * destruct (A1 i Hi) as (p & q & P1 & P2 & P3). destruct (A2 i Hi) as (p' & q' & P1' & P2' & P3'). specialize (H i p p' P1 P1').
          destruct (in_dec _ _ _); [|contradiction]. assert (o = q) by congruence. assert (o' = q') by congruence. subst q q'. exact (start_same p p' H o o' P2 P2').
        * rewrite (B1 i Hi) in Ho. rewrite (B2 i Hi) in Ho'. specialize (H i o o' Ho Ho'). destruct (in_dec _ _ _); [contradiction|]. subst. reflexivity.
      + intros i Hi. rewrite (B1 i Hi), (B2 i Hi). destruct (nth_error st i) as [o|] eqn:Eo.
        * destruct (nth_error st' i) as [o'|] eqn:Eo'; [|apply nth_error_None in Eo'; apply nth_error_lt in Eo; lia]. specialize (H i o o' Eo Eo'). destruct (in_dec _ _ _); [contradiction|]. congruence.
        * apply nth_error_None in Eo. symmetry. apply nth_error_None. lia.
    - destruct (T st st' L s E) as [a Ea]. congruence.
    - destruct (T st' st (eq_sym L) s' E') as [a Ea]. congruence.
  Qed.

  (** ** Counting *)
  Lemma count_same eb ids : only_writes_bops eb -> forall st st', nobs st = nobs st' -> (forall i, ~ In i ids -> nth_error st i = nth_error st' i) ->
    count_bops eb ids st = count_bops eb ids st'.
  Proof.
    intros HB. induction ids as [|i ids IH]; intros st st' EN H; cbn [count_bops].
    - replace st' with st; [reflexivity|]. apply nth_error_ext; [|intros j x y Hx Hy; rewrite (H j) in Hx by auto; congruence]. apply (f_equal (@length _)) in EN. unfold nobs in EN. rewrite !map_length in EN. exact EN.
    - pose proof (get_nobs st i) as G. rewrite EN, get_nobs in G. destruct (get st i) as [o|] eqn:Eo; destruct (get st' i) as [o'|] eqn:Eo'; try discriminate; [|reflexivity].
      cbn [rbind]. assert (W : without_bops o = without_bops o') by (cbn in G; congruence). assert (R : with_record o false = mkO (o_layer o') false (o_act o') (o_ins o') (o_bops o)).
      { unfold with_record. injection W as -> _ -> ->. reflexivity. }
      assert (S1 : eb (set_nth st i (with_record o false)) i = eb (set_nth st' i (with_record o' false)) i).
      { apply HB. fold nobs. change (map without_bops) with nobs. rewrite !set_nobs, EN. f_equal. rewrite R. reflexivity. }
      cbv zeta. rewrite S1. destruct (eb (set_nth st' i (with_record o' false)) i) as [d|]; cbn [rbind]; [|reflexivity].
      set (s := set_nth (set_nth st i _) i _). set (s' := set_nth (set_nth st' i _) i _).
      assert (ES : count_bops eb ids s = count_bops eb ids s').
      { apply IH.
        - unfold s, s'. rewrite !set_nobs, EN, R. reflexivity.
        - intros j Hj. unfold s, s'. rewrite !set_nth_error, !set_nth_length. assert (LL : length st = length st') by (apply (f_equal (@length _)) in EN; unfold nobs in EN; rewrite !map_length in EN; exact EN).
          rewrite LL. destruct (Nat.eqb_spec i j) as [->|N].
          + rewrite R. cbn [o_layer o_record o_act o_ins]. destruct (j <? length st'); reflexivity.
          + apply H. intros [?|?]; contradiction. }
      rewrite ES. reflexivity.
  Qed.

  Theorem trace_forgets eb m ds bsz c st st' : only_writes_bops eb -> same_model m st st' ->
    trace_minmax pw ln2 eb m ds bsz true c false st' = trace_minmax pw ln2 eb m ds bsz true c false st.
  Proof.
    intros HB HS. unfold trace_minmax. pose proof (each_start m st st' HS) as H1.
    destruct (each start_obj (top_layers m) st) as [s|]; destruct (each start_obj (top_layers m) st') as [s'|]; try contradiction; [|reflexivity]. cbn [rbind]. destruct H1 as [EN ES].
    destruct (Nat.eqb bsz 0); [reflexivity|].
    pose proof (feed_nobs m (batches ds bsz) s) as F. rewrite EN, feed_nobs in F.
    destruct (feed pw ln2 m (batches ds bsz) s) as [[r s2]|] eqn:E2; destruct (feed pw ln2 m (batches ds bsz) s') as [[r' s2']|] eqn:E2'; try discriminate; [|reflexivity].
    cbn [rbind fst snd]. unfold on_snd in F. cbn [rmap fst snd] in F. assert (r' = r) by congruence. subst r'. assert (EN2 : nobs s2 = nobs s2') by congruence.
    apply feed_bops in E2, E2'.
    pose proof (cover_step_nobs m c s2) as C. rewrite EN2, cover_step_nobs in C.
    destruct (cover_step pw ln2 m c s2) as [s3|] eqn:E3; destruct (cover_step pw ln2 m c s2') as [s3'|] eqn:E3'; try discriminate; [|reflexivity].
    cbn [rbind]. cbn [rmap] in C. assert (EN3 : nobs s3 = nobs s3') by congruence. apply cover_step_bops in E3, E3'.
    pose proof (each_nobs fix_obj fix_nobs (top_layers m) s3) as X. rewrite EN3, (each_nobs fix_obj fix_nobs) in X.
    destruct (each fix_obj (top_layers m) s3) as [s4|] eqn:E4; destruct (each fix_obj (top_layers m) s3') as [s4'|] eqn:E4'; try discriminate; [|reflexivity].
    cbn [rbind]. cbn [rmap] in X. assert (EN4 : nobs s4 = nobs s4') by congruence. apply (each_bops fix_obj fix_bops) in E4, E4'.
    rewrite (count_same eb (top_layers m) HB s4 s4' EN4); [reflexivity|].
    intros i Hi. assert (B : nth_error (map o_bops s4) i = nth_error (map o_bops s4') i).
    { rewrite E4, E4', E3, E3', E2, E2'. rewrite !nth_error_map, (ES i Hi). reflexivity. }
    assert (N : nth_error (nobs s4) i = nth_error (nobs s4') i) by (rewrite EN4; reflexivity).
    unfold nobs in N. rewrite !nth_error_map in B, N. destruct (nth_error s4 i) as [o|], (nth_error s4' i) as [o'|]; try discriminate; [|reflexivity].
    cbn in B, N. destruct o, o'; unfold without_bops in N; cbn in B, N. congruence.
  Qed.
End P.

(** ** What a calibration leaves alone *)
Definition twins (st st' : store) : Prop := length st' = length st /\ forall i o, nth_error st i = Some o -> exists o', nth_error st' i = Some o' /\ twin o o'.
Lemma twins_trans a b c : twins a b -> twins b c -> twins a c.
Proof.
  intros [L1 H1] [L2 H2]. split; [lia|]. intros i o E. destruct (H1 i o E) as (o1 & E1 & T1). destruct (H2 i o1 E1) as (o2 & E2 & T2). exists o2. split; [exact E2|]. exact (twin_trans _ _ _ T1 T2).
Qed.
Lemma twins_refl a : twins a a.
Proof. split; [reflexivity|]. intros i o E. exists o. split; [exact E|apply twin_refl]. Qed.
Lemma each_twins (P : hobj -> Prop) f m st st' : Forall P st -> (forall o o', P o -> f o = Ok o' -> twin o o') -> each f (top_layers m) st = Ok st' -> twins st st'.
Proof.
  intros HP H E. destruct (each_spec _ _ (top_NoDup m) _ _ E) as (L & A & B). split; [exact L|]. intros i o Eo.
  destruct (in_dec Nat.eq_dec i (top_layers m)) as [Hi|Hi].
  - destruct (A i Hi) as (p & q & E1 & E2 & E3). assert (p = o) by congruence. subst p. exists q. split; [exact E3|]. apply H; [|exact E2]. rewrite Forall_nth_error in HP. exact (HP i o Eo).
  - exists o. split; [rewrite (B i Hi); exact Eo|apply twin_refl].
Qed.
Lemma trace_twins pw ln2 eb m n ds bsz rst c nb st bops rs st' : Forall obj_ok st -> leaves hgq_layer m -> dataset n ds -> 0 < bsz ->
  trace_minmax pw ln2 eb m ds bsz rst c nb st = Ok (bops, rs, st') -> twins st st'.
Proof.
  unfold trace_minmax. intros HO HL HD HB E. apply rbind_ok in E. destruct E as [s1 [E1 E]].
  pose proof (start_step m rst st s1 HO E1) as HO1.
  assert (T1 : twins st s1).
  { destruct rst; [|injection E1 as <-; apply twins_refl]. apply (each_twins obj_ok start_obj m); [exact HO| |exact E1].
    intros o o' _ X. injection X as <-. split; [|split; reflexivity]. eexists. eexists. reflexivity. }
  destruct (Nat.eqb bsz 0) eqn:Eb; [discriminate|]. apply rbind_ok in E. destruct E as [[r s2] [E2 E]]. cbn [fst snd] in E.
  pose proof (feed_ok pw ln2 m n ds bsz s1 r s2 HO1 HL HD HB E2) as HO2.
  assert (T2 : twins s1 s2).
  { pose proof (feed_spec pw ln2 s1 m n ds bsz s1 (fun _ _ _ => False) HO1 HL HD HB) as F. rewrite E2 in F.
    destruct F as [_ [[L R] _]]; [apply rel_refl; auto|]. split; [exact L|]. intros i o Eo. destruct (R i o Eo) as [o2 [Eo2 R2]]. exists o2. split; [exact Eo2|exact (twin_rel _ _ _ R2)]. }
  apply rbind_ok in E. destruct E as [s3 [E3 E]].
  assert (T3 : twins s2 s3 /\ Forall obj_ok s3).
  { unfold cover_step in E3. destruct (qeqb c (qz 1)); [injection E3 as <-; split; [apply twins_refl|exact HO2]|]. destruct (qltb _ _); [|discriminate]. split.
    - apply (each_twins obj_ok (cover_obj pw ln2 c) m); [exact HO2| |exact E3]. intros o o' A B. apply twin_sbr. apply (cover_ok pw ln2 c o o' A B).
    - eapply each_forall; [apply top_NoDup|exact HO2| |exact E3]. intros o o' A B. apply (cover_ok pw ln2 c o o' A B). }
  destruct T3 as [T3 HO3]. apply rbind_ok in E. destruct E as [s4 [E4 E]].
  assert (T4 : twins s3 s4) by (apply (each_twins obj_ok fix_obj m); [exact HO3| |exact E4]; intros o o' A B; apply twin_sbr; apply (fix_spec o o' A B)).
  pose proof (twins_trans _ _ _ T1 (twins_trans _ _ _ T2 (twins_trans _ _ _ T3 T4))) as T.
  destruct nb; [injection E as _ _ <-; exact T|].
  apply rbind_ok in E. destruct E as [[b s5] [E5 E]]. cbn [fst snd] in E. injection E as _ _ <-.
  apply (twins_trans _ _ _ T). destruct (count_spec eb _ (top_NoDup m) _ _ _ E5) as [L [A [B _]]]. split; [exact L|]. intros i o Eo.
  destruct (in_dec Nat.eq_dec i (top_layers m)) as [Hi|Hi].
  - destruct (A i Hi) as [o1 [d [O1 O2]]]. assert (o1 = o) by congruence. subst o1. eexists. split; [exact O2|]. split; [|split; reflexivity]. destruct (twin_refl o) as [(mn & mx & X) _]. exists mn, mx. exact X.
  - exists o. split; [rewrite (B i Hi); exact Eo|apply twin_refl].
Qed.
Lemma twin_training o o' : twin o o' -> same_training o o'.
Proof. intros ((mn & mx & E) & A & I). split; [exact A|]. split; [exact I|]. exists mn, mx. exact E. Qed.
Lemma trace_same_model pw ln2 eb m n ds bsz rst c nb st bops rs st' : Forall obj_ok st -> leaves hgq_layer m -> dataset n ds -> 0 < bsz ->
  (forall i o, nth_error st i = Some o -> In i (top_layers m) \/ o_record o = false) ->
  trace_minmax pw ln2 eb m ds bsz rst c nb st = Ok (bops, rs, st') -> same_model m st st'.
Proof.
  intros HO HL HD HB HR E. destruct (trace_twins _ _ _ _ _ _ _ _ _ _ _ _ _ _ HO HL HD HB E) as [L T]. split; [exact L|]. intros i o o' Eo Eo'.
  destruct (in_dec Nat.eq_dec i (top_layers m)) as [Hi|Hi].
  - destruct (T i o Eo) as (o1 & E1 & T1). assert (o1 = o') by congruence. subst o1. apply twin_training, T1.
  - pose proof (trace_others pw ln2 eb m n ds bsz rst c nb st bops rs st' HO HL HD HB E i o Hi Eo) as X. destruct (HR i o Eo) as [?|R]; [contradiction|]. specialize (X R). congruence.
Qed.
