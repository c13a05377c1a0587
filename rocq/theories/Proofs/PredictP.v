(** The predictions trace_minmax returns (C83). *)
From Coq Require Import ZArith Qcanon List Bool Lia.
From Verif Require Import Base.Num Base.NumFacts Base.Tensor Model.FixedPoint Model.Quantizer Model.Layers Model.Graph Model.Trace Model.Predict
  Spec.Fixed Spec.Quant Spec.History Spec.Layer Spec.Graph Spec.Trace Proofs.TensorP Proofs.CallP Proofs.SampleP Proofs.LayersP Proofs.ConvertP
  Proofs.TraceP Proofs.FeedP Proofs.TraceMinmaxP Proofs.CoverP Proofs.TraceMoreP Proofs.ProxyModelP Proofs.ProxyTraceP Proofs.ProxyGuardP.
Import ListNotations.
Local Open Scope nat_scope.

(** ** Stores whose objects differ in registers, recording flags and BOPs *)
Definition twins (st st' : store) : Prop := length st' = length st /\
  forall i o, nth_error st i = Some o -> exists o', nth_error st' i = Some o' /\ twin o o'.
Lemma twins_refl st : twins st st.
Proof. split; [reflexivity|]. intros i o E. exists o. split; [assumption|apply twin_refl]. Qed.
Lemma twins_trans a b c : twins a b -> twins b c -> twins a c.
Proof.
  intros [L1 H1] [L2 H2]. split; [congruence|]. intros i o E. destruct (H1 i o E) as [o1 [E1 T1]]. destruct (H2 i o1 E1) as [o2 [E2 T2]].
  exists o2. split; [assumption|]. eapply twin_trans; eassumption.
Qed.
Lemma twins_each f ids st st' : NoDup ids -> (forall o o', In o st -> f o = Ok o' -> twin o o') -> each f ids st = Ok st' -> twins st st'.
Proof.
  intros HN HF E. destruct (each_spec f ids HN _ _ E) as [L [A B]]. split; [assumption|]. intros i o Ho.
  destruct (in_dec Nat.eq_dec i ids) as [Hi|Hi].
  - destruct (A i Hi) as [o1 [o2 [E1 [E2 E3]]]]. assert (o1 = o) by congruence. subst o1. exists o2. split; [assumption|].
    eapply HF; [eapply nth_error_In, Ho|assumption].
  - exists o. split; [rewrite B; assumption|apply twin_refl].
Qed.

Section P.
Variable pw : Qc -> Qc.
Variable ln2 : Qc.

Lemma trace_feed eb m n ds bsz rst c nb st bops rs st' : Forall obj_ok st -> leaves hgq_layer m -> dataset n ds -> 0 < bsz ->
  trace_minmax pw ln2 eb m ds bsz rst c nb st = Ok (bops, rs, st') ->
  exists st1 st2, Forall obj_ok st1 /\ feed pw ln2 m (batches ds bsz) st1 = Ok (rs, st2) /\ twins st st1 /\ twins st1 st'.
Proof.
  intros HO HL HD HB E. unfold trace_minmax in E. apply rbind_ok in E. destruct E as [s1 [E1 E]]. destruct (Nat.eqb_spec bsz 0); [lia|].
  apply rbind_ok in E. destruct E as [[rs' s2] [E2 E]]. cbn [fst snd] in E. apply rbind_ok in E. destruct E as [s3 [E3 E]].
  apply rbind_ok in E. destruct E as [s4 [E4 E]].
  pose proof (start_step m rst st s1 HO E1) as HO1. pose proof (feed_ok pw ln2 m n ds bsz s1 rs' s2 HO1 HL HD HB E2) as HO2.
  assert (T1 : twins st s1).
  { destruct rst; [|injection E1 as <-; apply twins_refl]. eapply twins_each; [apply top_NoDup| |exact E1]. intros o o' _ Es. injection Es as <-.
    split; [|split; reflexivity]. eexists _, _. unfold reset_obj, with_paq, with_layer, with_record. cbn [o_layer]. unfold minmax_reg_reset. reflexivity. }
  assert (T2 : twins s1 s2).
  { pose proof (feed_spec pw ln2 s1 m n ds bsz s1 (fun _ _ _ => False) HO1 HL HD HB) as F. rewrite E2 in F. destruct F as [_ [[RL R] _]]; [apply rel_refl; auto|].
    split; [assumption|]. intros i o Ho. destruct (R i o Ho) as [o' [Ho' Ro]]. exists o'. split; [assumption|]. eapply twin_rel, Ro. }
  assert (T3 : twins s2 s3).
  { unfold cover_step in E3. destruct (qeqb c (qz 1)); [injection E3 as <-; apply twins_refl|]. destruct (qltb _ _); [|discriminate].
    eapply twins_each; [apply top_NoDup| |exact E3]. intros o o' Hin Ec. apply twin_sbr. rewrite Forall_forall in HO2. eapply cover_ok; eauto. }
  assert (T4 : twins s3 s4).
  { eapply twins_each; [apply top_NoDup| |exact E4]. intros o o' _ Ef. unfold fix_obj in Ef. injection Ef as <-.
    destruct (o_act o); try apply twin_refl; apply twin_sbr; eexists _, _; reflexivity. }
  assert (T5 : rs' = rs /\ twins s4 st').
  { destruct nb; [injection E as _ -> <-; split; [reflexivity|apply twins_refl]|].
    apply rbind_ok in E. destruct E as [[b s5] [E5 E]]. cbn [fst snd] in E. injection E as _ -> <-. split; [reflexivity|].
    destruct (count_spec eb _ (top_NoDup m) _ _ _ E5) as [L [A [B _]]]. split; [assumption|]. intros i o Ho.
    destruct (in_dec Nat.eq_dec i (top_layers m)) as [Hi|Hi].
    - destruct (A i Hi) as [o4 [d [Eo Eo']]]. assert (o4 = o) by congruence. subst o4. eexists. split; [exact Eo'|].
      destruct (twin_refl o) as [T _]. split; [exact T|split; reflexivity].
    - exists o. split; [rewrite B; assumption|apply twin_refl]. }
  destruct T5 as [-> T5]. exists s1, s2. repeat (split; [assumption|]).
  exact (twins_trans _ _ _ T2 (twins_trans _ _ _ T3 (twins_trans _ _ _ T4 T5))).
Qed.

Lemma sem1_twins st st' m : twins st st' -> forall s log, run (sem1 pw ln2 st') m s log = run (sem1 pw ln2 st) m s log.
Proof.
  intros [L H]. apply run_ext. assert (X : forall x vs log, sem1 pw ln2 st' x vs log = sem1 pw ln2 st x vs log).
  { intros [u k] vs log.
    assert (K : forall i, (k = KH i \/ k = KQuant i) -> sem1 pw ln2 st' (u, k) vs log = sem1 pw ln2 st (u, k) vs log).
    { intros i HK.
      assert (G : rbind (get st' i) (fun o => if negb (sized_all (o_ins o) (map (fun s => [s]) vs)) then Raise
          else match vs with [] => Raise | _ => Ok (yout pw ln2 (o_layer o) vs, log ++ [(i, ysamp pw ln2 (o_layer o) vs)]) end) =
        rbind (get st i) (fun o => if negb (sized_all (o_ins o) (map (fun s => [s]) vs)) then Raise
          else match vs with [] => Raise | _ => Ok (yout pw ln2 (o_layer o) vs, log ++ [(i, ysamp pw ln2 (o_layer o) vs)]) end)).
      { unfold get. destruct (nth_error st i) as [o|] eqn:Eo.
        - destruct (H i o Eo) as [o' [E' T]]. rewrite E'. cbn [rbind]. destruct T as [TL [TA TI]]. rewrite TI. destruct (negb _); [reflexivity|].
          assert (T : twin o o') by (split; auto). rewrite (twin_yout pw ln2 _ _ vs T), (twin_ysamp pw ln2 _ _ vs T). reflexivity.
        - assert (E' : nth_error st' i = None) by (apply nth_error_None; rewrite L; apply nth_error_None; assumption). rewrite E'. reflexivity. }
      destruct HK; subst k; exact G. }
    destruct k as [i|i|cf out|g|p| |g|q out|]; try reflexivity; apply (K i); auto. }
  clear - X. induction m as [x|nin nodes outs IH] using klayer_ind'; constructor; auto.
Qed.

(** A call of the model, sample by sample. *)
Lemma call_out st0 st m n B : Forall obj_ok st -> twins st0 st -> leaves hgq_layer m -> 0 < n -> Forall (fun b : list sample => length b = n) B ->
  (forall j, j < n -> runs pw ln2 st0 m (cols B j)) ->
  exists outs st', call_model pw ln2 m B st = Ok (outs, st') /\ length outs = nouts m /\
    forall k, k < nouts m -> nth k outs [] = map (fun j => nth k (out1 pw ln2 st0 m (cols B j)) []) (seq 0 n).
Proof.
  intros HO HT HL Hn HB HR. pose proof (sim_run pw ln2 st m HO HL n B st (fun _ _ _ => False) Hn HB (rel_refl st _ (fun _ _ _ H => H))) as S.
  unfold call_model. destruct (run (call_layer pw ln2) m B st) as [[outs st']|] eqn:E.
  2: { destruct S as [j [Hj Ej]]. destruct (HR j Hj) as [r Er]. specialize (Ej []). rewrite (sem1_twins st0 st m HT) in Ej. congruence. }
  destruct S as [Lo [vis [Ev _]]]. pose proof (run_nouts _ _ _ _ _ _ E) as LN. exists outs, st'. split; [reflexivity|]. split; [assumption|].
  intros k Hk. assert (Lk : length (nth k outs []) = n) by (rewrite Forall_forall in Lo; apply Lo, nth_In; lia).
  apply (list_nth_ext []); [rewrite map_length, seq_length; assumption|]. intros t Ht. rewrite Lk in Ht. rewrite nth_map_seq by assumption.
  unfold out1. pose proof (Ev t [] Ht) as Et. rewrite (sem1_twins st0 st m HT) in Et. rewrite Et. unfold cols.
  rewrite (nth_indep (map _ outs) [] ((fun b : list sample => nth t b []) [])) by (rewrite map_length; lia).
  rewrite (map_nth (fun b => nth t b [])). reflexivity.
Qed.

(** The output of every batch. *)
Lemma feed_pieces st0 m : Forall obj_ok st0 -> leaves hgq_layer m -> forall bs st rs st', Forall good_batch bs -> Forall obj_ok st -> twins st0 st ->
  feed pw ln2 m bs st = Ok (rs, st') ->
  Forall2 (fun b r => length r = nouts m /\ forall k, k < nouts m -> nth k r [] = map (fun s => nth k (out1 pw ln2 st0 m s) []) (cols_of b)) bs rs.
Proof.
  intros HO0 HL. induction bs as [|b bs IH]; intros st rs st' HG HO HT E; cbn [feed] in E.
  - injection E as <- <-. constructor.
  - inversion HG as [|? ? [Hb [n [Hn HF]]] HG']; subst. apply rbind_ok in E. destruct E as [[y s1] [E1 E]]. cbn [fst snd] in E.
    apply rbind_ok in E. destruct E as [[r s2] [E2 E]]. cbn [fst snd] in E. injection E as <- <-.
    pose proof (sim_run pw ln2 st m HO HL n b st (fun _ _ _ => False) Hn HF (rel_refl st _ (fun _ _ _ H => H))) as S.
    unfold call_model in E1. rewrite E1 in S. destruct S as [Lo [vis [Ev [RL R]]]].
    assert (T1 : twins st s1).
    { split; [assumption|]. intros i o Ho. destruct (R i o Ho) as [o' [Ho' Ro]]. exists o'. split; [assumption|]. eapply twin_rel, Ro. }
    assert (O1 : Forall obj_ok s1).
    { apply Forall_nth_error. intros i o Ho. destruct (nth_error st i) as [o0|] eqn:E0.
      - destruct (R i o0 E0) as [o1 [E1' [mn [mx [-> RS]]]]]. assert (o = obj_mm o0 mn mx) by congruence. subst o.
        eapply obj_ok_mm; [|exact RS]. rewrite Forall_nth_error in HO. eapply HO, E0.
      - apply nth_error_None in E0. apply nth_error_lt in Ho. lia. }
    constructor; [|eapply IH; [exact HG'|exact O1|eapply twins_trans; eassumption|exact E2]].
    assert (HR : forall j, j < n -> runs pw ln2 st0 m (cols b j)).
    { intros j Hj. eexists. rewrite <- (sem1_twins st0 st m HT). apply Ev, Hj. }
    destruct (call_out st0 st m n b HO HT HL Hn HF HR) as [outs [s' [Ec [LN K]]]]. unfold call_model in Ec. rewrite E1 in Ec. injection Ec as -> ->.
    split; [assumption|]. intros k Hk. rewrite (K k Hk), (cols_of_good b n Hb HF), map_map. reflexivity.
Qed.

Lemma select_cols n ds js : dataset n ds -> forall j, j < length js ->
  cols (map (fun d => map (fun j => nth j d []) js) ds) j = sample_of ds (nth j js 0).
Proof.
  intros _ j Hj. unfold cols, sample_of. rewrite map_map. apply map_ext. intros d. rewrite (nth_indep _ [] (nth 0 d [])) by (rewrite map_length; assumption).
  apply (map_nth (fun j => nth j d [])).
Qed.

(** What the model says about rows js of the dataset. *)
Lemma select_out eb m n ds bsz rst c nb st bops rs st' st1 st2 : Forall obj_ok st -> leaves hgq_layer m -> dataset n ds -> 0 < bsz ->
  trace_minmax pw ln2 eb m ds bsz rst c nb st = Ok (bops, rs, st') ->
  Forall obj_ok st1 -> feed pw ln2 m (batches ds bsz) st1 = Ok (rs, st2) -> twins st st1 -> twins st1 st' ->
  forall js s, js <> [] -> Forall (fun j => j < n) js -> s = st \/ s = st' ->
  exists outs s', call_model pw ln2 m (map (fun d => map (fun j => nth j d []) js) ds) s = Ok (outs, s') /\ length outs = nouts m /\
    forall k, k < nouts m -> nth k outs [] = map (fun j => nth k (out1 pw ln2 st1 m (sample_of ds j)) []) js.
Proof.
  intros HO HL HD HB ET O1 EF T1 T2 js s Hjs HJ Hs.
  pose proof (feed_spec pw ln2 st1 m n ds bsz st1 (fun _ _ _ => False) O1 HL HD HB (rel_refl st1 _ (fun _ _ _ H => H))) as F. rewrite EF in F. destruct F as [HR _].
  assert (Os : Forall obj_ok s) by (destruct Hs as [-> | ->]; [assumption|exact (trace_ok _ _ _ _ _ _ _ _ _ _ _ _ _ _ HO HL HD HB ET)]).
  assert (X : exists s0, twins s0 s /\ forall x log, run (sem1 pw ln2 s0) m x log = run (sem1 pw ln2 st1) m x log).
  { destruct Hs as [-> | ->]; [exists st; split; [apply twins_refl|]; intros; symmetry; apply sem1_twins, T1|exists st1; auto]. }
  destruct X as [s0 [Ts Xs]]. set (B := map (fun d => map (fun j => nth j d []) js) ds).
  assert (LB : Forall (fun b : list sample => length b = length js) B). { apply Forall_forall. intros b Hb. apply in_map_iff in Hb. destruct Hb as [d [<- _]]. apply map_length. }
  assert (NB : 0 < length js) by (destruct js; [congruence|cbn; lia]).
  assert (RB : forall j, j < length js -> runs pw ln2 s0 m (cols B j)).
  { intros j Hj. unfold runs. rewrite Xs. unfold B. rewrite (select_cols n ds js HD j Hj). rewrite Forall_forall in HR. apply HR. apply in_map, in_seq.
    rewrite Forall_forall in HJ. specialize (HJ (nth j js 0) (nth_In _ _ Hj)). lia. }
  destruct (call_out s0 s m (length js) B Os Ts HL NB LB RB) as [outs [s' [E [LN K]]]]. exists outs, s'. split; [assumption|]. split; [assumption|].
  intros k Hk. rewrite (K k Hk). apply (list_nth_ext []); [rewrite !map_length, seq_length; reflexivity|]. intros t Ht. rewrite map_length, seq_length in Ht.
  rewrite nth_map_seq by assumption. rewrite (nth_indep (map _ js) [] ((fun j => nth k (out1 pw ln2 st1 m (sample_of ds j)) []) 0)) by (rewrite map_length; assumption).
  rewrite (map_nth (fun j => nth k (out1 pw ln2 st1 m (sample_of ds j)) [])). unfold out1. rewrite Xs. unfold B. rewrite (select_cols n ds js HD t Ht). reflexivity.
Qed.

Lemma batches_ne n ds bsz : dataset n ds -> 0 < n -> 0 < bsz -> batches ds bsz <> [].
Proof.
  intros [HF Hd] Hn Hb. unfold batches. assert (L : length (hd [] ds) = n) by (destruct ds; [congruence|]; inversion HF; auto). rewrite L.
  assert (0 < (n + bsz - 1) / bsz) by (apply Nat.div_str_pos; lia). destruct ((n + bsz - 1) / bsz); [lia|discriminate].
Qed.

Lemma predictions_one eb m n ds bsz rst c nb st bops rs st' sh : Forall obj_ok st -> leaves hgq_layer m -> dataset n ds -> 0 < n -> 0 < bsz -> nouts m = 1 ->
  trace_minmax pw ln2 eb m ds bsz rst c nb st = Ok (bops, rs, st') ->
  exists y, predictions [sh] rs = Ok (Rows y) /\ length y = n /\
  forall js s, js <> [] -> Forall (fun j => j < n) js -> s = st \/ s = st' ->
    exists s', call_model pw ln2 m (map (fun d => map (fun j => nth j d []) js) ds) s = Ok ([map (fun j => nth j y []) js], s').
Proof.
  intros HO HL HD Hn HB H1 ET. destruct (trace_feed _ _ _ _ _ _ _ _ _ _ _ _ HO HL HD HB ET) as [st1 [st2 [O1 [EF [T1 T2]]]]].
  pose proof (feed_spec pw ln2 st1 m n ds bsz st1 (fun _ _ _ => False) O1 HL HD HB (rel_refl st1 _ (fun _ _ _ H => H))) as F. rewrite EF in F.
  destruct F as [_ [_ [HC _]]]. specialize (HC 0 ltac:(lia)).
  exists (concat (map (fun r => nth 0 r []) rs)). split; [|split].
  - unfold predictions. destruct rs; [|reflexivity]. exfalso. destruct (batches ds bsz) as [|b bs] eqn:Eb; [eapply batches_ne; eassumption|].
    cbn [feed] in EF. apply rbind_ok in EF. destruct EF as [x [_ EF]]. apply rbind_ok in EF. destruct EF as [z [_ EF]]. discriminate.
  - rewrite HC, !map_length, seq_length. reflexivity.
  - intros js s Hjs HJ Hs. destruct (select_out _ _ _ _ _ _ _ _ _ _ _ _ _ _ HO HL HD HB ET O1 EF T1 T2 js s Hjs HJ Hs) as [outs [s' [E [LN K]]]].
    exists s'. rewrite E. f_equal. f_equal. rewrite H1 in LN. destruct outs as [|o [|]]; try discriminate. f_equal. specialize (K 0 ltac:(lia)). cbn [nth] in K. rewrite K.
    apply map_ext_in. intros j Hj. rewrite Forall_forall in HJ. specialize (HJ j Hj). rewrite HC, map_map.
    rewrite nth_map_seq by assumption. reflexivity.
Qed.

(** ** Several outputs *)
Lemma nth_concat_rows {A} (rs : list (list A)) k d : Forall (fun r => length r = k) rs ->
  forall j o, o < k -> nth (k * j + o) (concat rs) d = nth o (nth j rs []) d.
Proof.
  induction 1 as [|r rs Hr _ IH]; intros j o Ho.
  - cbn. destruct j, o; destruct (k * _ + _); reflexivity.
  - destruct j as [|j]; cbn [concat nth].
    + rewrite Nat.mul_0_r. apply app_nth1. lia.
    + rewrite app_nth2 by nia. rewrite <- IH by assumption. f_equal. nia.
Qed.
Lemma concat_rows_length {A} (rs : list (list A)) k : Forall (fun r => length r = k) rs -> length (concat rs) = k * length rs.
Proof. induction 1 as [|r rs Hr _ IH]; cbn [concat length]; [lia|]. rewrite app_length, IH. lia. Qed.

Lemma Forall2_nth_both {A B} (R : A -> B -> Prop) l l' a b : Forall2 R l l' -> forall j, j < length l -> R (nth j l a) (nth j l' b).
Proof. induction 1 as [|x y l l' H _ IH]; intros j Hj; [cbn in Hj; lia|]. destruct j; [assumption|]. apply IH. cbn in Hj. lia. Qed.
Lemma Forall2_len {A B} (R : A -> B -> Prop) l l' : Forall2 R l l' -> length l = length l'.
Proof. induction 1; cbn; congruence. Qed.
Lemma Forall2_right {A B} (P : B -> Prop) (R : A -> B -> Prop) l l' : (forall a b, R a b -> P b) -> Forall2 R l l' -> Forall P l'.
Proof. intros H. induction 1; constructor; eauto. Qed.

Lemma batch_cols_of n ds bsz j : dataset n ds -> 0 < bsz -> j < (n + bsz - 1) / bsz ->
  cols_of (nth j (batches ds bsz) []) = map (sample_of ds) (seq (j * bsz) (Nat.min bsz (n - j * bsz))).
Proof.
  intros [HF Hd] Hb Hj. unfold batches. assert (Hn : length (hd [] ds) = n) by (destruct ds; [congruence|]; inversion HF; auto). rewrite Hn.
  rewrite nth_map_seq by assumption. unfold cols_of.
  replace (length (hd [] (map (fun d => firstn bsz (skipn (j * bsz) d)) ds))) with (Nat.min bsz (n - j * bsz)).
  2: { destruct ds; [congruence|]. cbn [map hd] in *. rewrite firstn_skipn_length, Hn. reflexivity. }
  apply (list_nth_ext []); [rewrite !map_length, !seq_length; reflexivity|]. intros t Ht. rewrite map_length, seq_length in Ht.
  rewrite (nth_map_seq _ _ _ _ Ht).
  rewrite (nth_indep _ [] (sample_of ds 0)) by (rewrite map_length, seq_length; assumption).
  rewrite map_nth, seq_nth by assumption. unfold cols, sample_of. rewrite map_map. apply map_ext. intros d.
  apply nth_firstn_skipn. lia.
Qed.
Lemma batches_length n ds bsz : dataset n ds -> length (batches ds bsz) = (n + bsz - 1) / bsz.
Proof.
  intros [HF Hd]. unfold batches. assert (Hn : length (hd [] ds) = n) by (destruct ds; [congruence|]; inversion HF; auto).
  rewrite map_length, seq_length, Hn. reflexivity.
Qed.

Lemma pieces eb m n ds bsz rst c nb st bops rs st' : Forall obj_ok st -> leaves hgq_layer m -> dataset n ds -> 0 < n -> 0 < bsz ->
  trace_minmax pw ln2 eb m ds bsz rst c nb st = Ok (bops, rs, st') ->
  exists ys s', call_model pw ln2 m ds st' = Ok (ys, s') /\ length ys = nouts m /\ Forall (fun y => length y = n) ys /\
    length rs = (n + bsz - 1) / bsz /\ Forall (fun r => length r = nouts m) rs /\
    forall j o, j < (n + bsz - 1) / bsz -> o < nouts m -> nth o (nth j rs []) [] = firstn bsz (skipn (j * bsz) (nth o ys [])).
Proof.
  intros HO HL HD Hn HB ET. destruct (trace_feed _ _ _ _ _ _ _ _ _ _ _ _ HO HL HD HB ET) as [st1 [st2 [O1 [EF [T1 T2]]]]].
  destruct (select_out _ _ _ _ _ _ _ _ _ _ _ _ _ _ HO HL HD HB ET O1 EF T1 T2 (seq 0 n) st') as [ys [s' [E [LN K]]]].
  { destruct n; [lia|discriminate]. } { apply Forall_forall. intros j Hj. apply in_seq in Hj. lia. } { auto. }
  assert (ED : map (fun d => map (fun j => nth j d []) (seq 0 n)) ds = ds).
  { rewrite <- (map_id ds) at 2. apply map_ext_in. intros d Hd. destruct HD as [HF _]. rewrite Forall_forall in HF. specialize (HF d Hd).
    apply (list_nth_ext []); [rewrite map_length, seq_length; auto|]. intros t Ht. rewrite map_length, seq_length in Ht. rewrite nth_map_seq by assumption. reflexivity. }
  rewrite ED in E. exists ys, s'. split; [assumption|]. split; [assumption|].
  split; [apply Forall_forall; intros y Hy; apply (In_nth _ _ []) in Hy; destruct Hy as [k [Hk <-]]; rewrite K, map_length, seq_length by lia; reflexivity|].
  pose proof (feed_pieces st1 m O1 HL _ _ _ _ (batches_good n ds bsz HD HB) O1 (twins_refl st1) EF) as FP.
  pose proof (Forall2_len _ _ _ FP) as LF. rewrite (batches_length n ds bsz HD) in LF. split; [auto|].
  split; [eapply Forall2_right; [|exact FP]; cbn beta; tauto|]. intros j o Hj Ho.
  assert (Hj' : j < length (batches ds bsz)) by (rewrite (batches_length n ds bsz HD); assumption).
  destruct (Forall2_nth_both _ _ _ [] [] FP j Hj') as [_ P]. rewrite (P o Ho), (batch_cols_of n ds bsz j HD HB Hj), (K o Ho), map_map.
  apply (list_nth_ext []); [rewrite map_length, seq_length, firstn_skipn_length, map_length, seq_length; reflexivity|].
  intros t Ht. rewrite map_length, seq_length in Ht. rewrite nth_firstn_skipn by lia.
  rewrite nth_map_seq by lia. rewrite (nth_indep _ [] ((fun j => nth o (out1 pw ln2 st1 m (sample_of ds j)) []) 0)) by (rewrite map_length, seq_length; assumption).
  rewrite (map_nth (fun j => nth o (out1 pw ln2 st1 m (sample_of ds j)) [])), seq_nth by assumption. reflexivity.
Qed.

Lemma predictions_many eb m n ds bsz rst c nb st bops rs st' oshapes : Forall obj_ok st -> leaves hgq_layer m -> dataset n ds -> 0 < n -> 0 < bsz ->
  2 <= nouts m -> length oshapes = nouts m -> trace_minmax pw ln2 eb m ds bsz rst c nb st = Ok (bops, rs, st') ->
  ((forall s s', In s oshapes -> In s' oshapes -> s = s') /\ (n <= bsz \/ Nat.divide bsz n) ->
    exists ys s' p, call_model pw ln2 m ds st' = Ok (ys, s') /\ predictions oshapes rs = Ok (Stack p) /\
      length p = nouts m * ((n + bsz - 1) / bsz) /\
      forall j o, j < (n + bsz - 1) / bsz -> o < nouts m -> nth (nouts m * j + o) p [] = firstn bsz (skipn (j * bsz) (nth o ys []))) /\
  (bsz < n -> ~ Nat.divide bsz n -> predictions oshapes rs = Raise) /\
  ((exists s s', In s oshapes /\ In s' oshapes /\ s <> s') -> predictions oshapes rs = Raise).
Proof.
  intros HO HL HD Hn HB H2 Hs ET. destruct (pieces _ _ _ _ _ _ _ _ _ _ _ _ HO HL HD Hn HB ET) as [ys [s' [E [LN [LY [LR [LRS P]]]]]]].
  assert (NB : 0 < (n + bsz - 1) / bsz) by (apply Nat.div_str_pos; lia).
  assert (PL : forall j o, j < (n + bsz - 1) / bsz -> o < nouts m -> length (nth o (nth j rs []) []) = Nat.min bsz (n - j * bsz)).
  { intros j o Hj Ho. rewrite P, firstn_skipn_length by assumption. rewrite Forall_forall in LY. rewrite (LY (nth o ys [])) by (apply nth_In; lia). reflexivity. }
  assert (EP : predictions oshapes rs = match oshapes with sh :: shs =>
    if (forallb (fun s => if list_eq_dec Nat.eq_dec s sh then true else false) shs &&
        forallb (fun b => Nat.eqb (List.length b) (List.length (nth 0 (nth 0 rs []) []))) (concat rs))%bool then Ok (Stack (concat rs)) else Raise | [] => Raise end).
  { unfold predictions. destruct rs as [|r0 rs]; [cbn in LR; lia|]. destruct oshapes as [|sh [|sh2 shs]]; [reflexivity|cbn in Hs; lia|reflexivity]. }
  destruct oshapes as [|sh shs]; [cbn in Hs; lia|]. split; [|split].
  - intros [HS HN]. exists ys, s', (concat rs). split; [assumption|]. split.
    + rewrite EP. replace (forallb (fun s => if list_eq_dec Nat.eq_dec s sh then true else false) shs) with true.
      2: { symmetry. apply forallb_forall. intros s Hin. destruct (list_eq_dec Nat.eq_dec s sh); [reflexivity|]. exfalso. apply n0, HS; cbn; auto. }
      replace (forallb _ (concat rs)) with true; [reflexivity|]. symmetry. apply forallb_forall. intros b Hb. apply Nat.eqb_eq.
      apply in_concat in Hb. destruct Hb as [r [Hr Hb]]. apply (In_nth _ _ []) in Hr. destruct Hr as [j [Hj <-]]. rewrite LR in Hj.
      apply (In_nth _ _ []) in Hb. destruct Hb as [o [Ho <-]].
      assert (Ho' : o < nouts m). { rewrite Forall_forall in LRS. rewrite <- (LRS (nth j rs [])); [assumption|]. apply nth_In. lia. }
      rewrite !PL by (try assumption; lia). destruct HN as [HN|[q HN]].
      * assert ((n + bsz - 1) / bsz = 1) by (symmetry; apply (Nat.div_unique _ _ _ (n - 1)); lia). assert (j = 0) by lia. subst j. reflexivity.
      * pose proof (ceil_tight n bsz j HB Hj). subst n. assert (j < q) by nia. rewrite !Nat.min_l; nia.
    + split; [rewrite (concat_rows_length rs (nouts m) LRS), LR; reflexivity|]. intros j o Hj Ho. rewrite (nth_concat_rows rs (nouts m) [] LRS) by assumption. apply P; assumption.
  - intros Hlt Hnd. rewrite EP. replace (forallb _ (concat rs)) with false; [rewrite andb_false_r; reflexivity|]. symmetry. apply not_true_iff_false. intros HF.
    rewrite forallb_forall in HF. set (j := (n + bsz - 1) / bsz - 1). assert (Hj : j < (n + bsz - 1) / bsz) by (unfold j; lia).
    assert (Hb : In (nth 0 (nth j rs []) []) (concat rs)).
    { apply in_concat. exists (nth j rs []). split; [apply nth_In; lia|]. apply nth_In. rewrite Forall_forall in LRS. rewrite (LRS (nth j rs [])) by (apply nth_In; lia). lia. }
    apply HF in Hb. apply Nat.eqb_eq in Hb. rewrite !PL in Hb by (try assumption; lia). rewrite Nat.mul_0_l, Nat.sub_0_r, (Nat.min_l bsz n) in Hb by lia.
    pose proof (ceil_tight n bsz j HB Hj) as HT. pose proof (ceil_cover n bsz HB) as HC. apply Hnd. exists (S j).
    assert ((n + bsz - 1) / bsz = S j) by (unfold j; lia). rewrite H in HC. cbn [Nat.mul] in *. lia.
  - intros [s [t [Hi [Hi' Hne]]]]. rewrite EP. replace (forallb (fun s => if list_eq_dec Nat.eq_dec s sh then true else false) shs) with false; [reflexivity|].
    symmetry. apply not_true_iff_false. intros HF. rewrite forallb_forall in HF.
    assert (A : forall x, In x (sh :: shs) -> x = sh). { intros x [<-|Hx]; [reflexivity|]. specialize (HF x Hx). destruct (list_eq_dec Nat.eq_dec x sh); [assumption|discriminate]. }
    apply Hne. rewrite (A s Hi), (A t Hi'). reflexivity.
Qed.
End P.
