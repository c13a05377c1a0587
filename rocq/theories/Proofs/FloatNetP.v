(** Networks and tracing in single precision (C90). *)
From Coq Require Import ZArith QArith Qcanon List Bool String Lia.
From Verif Require Import Base.Num Base.NumFacts Base.Tensor Model.FixedPoint Model.Quantizer Model.Layers Model.Graph
  Model.Convert Model.Trace Model.Float32 Model.FloatLayer Model.FloatNet Spec.Fixed Spec.Quant Spec.History Spec.Layer Spec.Graph Spec.Trace
  Spec.Float Spec.FloatLayer Spec.FloatNet Proofs.TensorP Proofs.QuantizerP
  Proofs.CallP Proofs.SampleP Proofs.LayersP Proofs.ConvertP Proofs.TraceP Proofs.FeedP Proofs.TraceMinmaxP Proofs.CoverP Proofs.TraceMoreP
  Proofs.CalibStepP Proofs.ProxyModelP Proofs.ProxyLayerP Proofs.ProxyTraceP Proofs.FloatModelP.
Import ListNotations.
Local Open Scope nat_scope.

(** ** Runs and the calls they make *)
Section Noted.
  Context {L V St : Type}.
  Variables (f f32 : L -> list V -> St -> result (V * St)) (h : L -> list V -> result V) (R : St -> Prop) (P : L -> list V -> Prop).
  Definition note (x : L) (vs : list V) (log : list (L * list V)) : result (V * list (L * list V)) := rbind (h x vs) (fun v => Ok (v, log ++ [(x, vs)])).
  Definition noted_leaf (x : L) : Prop := forall vs s v s', R s -> f x vs s = Ok (v, s') ->
    R s' /\ h x vs = Ok v /\ (P x vs -> f32 x vs s = Ok (v, s')).
  Lemma run_noted k : leaves noted_leaf k -> forall ins s outs s' log, R s -> run f k ins s = Ok (outs, s') ->
    R s' /\ exists new, run note k ins log = Ok (outs, log ++ new) /\ (Forall (fun c => P (fst c) (snd c)) new -> run f32 k ins s = Ok (outs, s')).
  Proof.
    induction k as [x|nin nodes outs IH] using klayer_ind'; intros Hl ins s os s' log HR E.
    - inversion Hl as [y H|]; subst. cbn [run] in E. apply rbind_ok in E. destruct E as [[v s1] [E1 E]]. cbn [fst snd] in E. injection E as <- <-.
      destruct (H ins s v s1 HR E1) as [A [B C]]. split; [exact A|]. exists [(x, ins)]. split; [cbn [run]; unfold note; rewrite B; reflexivity|].
      intros F. inversion F as [|? ? F1 _]; subst. cbn [fst snd] in F1. cbn [run]. rewrite (C F1). reflexivity.
    - inversion Hl as [|? ? ? HL]; subst. rewrite run_sub in E. destruct (Nat.eqb (length ins) nin) eqn:En; [|discriminate].
      apply rbind_ok in E. destruct E as [[W s1] [EW E]]. cbn [fst snd] in E. apply rbind_ok in E. destruct E as [ys [Ey E]]. injection E as <- <-.
      assert (N : forall ns vals s log, (forall k i, In (k, i) ns -> In (k, i) nodes) -> R s -> run_nodes f ns vals s = Ok (W, s1) ->
        R s1 /\ exists new, run_nodes note ns vals log = Ok (W, log ++ new) /\ (Forall (fun c => P (fst c) (snd c)) new -> run_nodes f32 ns vals s = Ok (W, s1))).
      { induction ns as [|[k i] ns IHn]; intros vals s0 lg Hin R0 E0.
        - injection E0 as -> ->. split; [exact R0|]. exists []. split; [rewrite app_nil_r; reflexivity|reflexivity].
        - rewrite run_nodes_cons in E0. apply rbind_ok in E0. destruct E0 as [xs [Ex E0]]. apply rbind_ok in E0. destruct E0 as [[o s2] [Eo E0]]. cbn [fst snd] in E0.
          destruct (IH k i (Hin _ _ (or_introl eq_refl)) (HL k i (Hin _ _ (or_introl eq_refl))) xs s0 o s2 lg R0 Eo) as [R2 [n1 [N1 C1]]].
          destruct (IHn _ s2 (lg ++ n1) (fun k' i' H => Hin k' i' (or_intror H)) R2 E0) as [R3 [n2 [N2 C2]]].
          split; [exact R3|]. exists (n1 ++ n2). rewrite !run_nodes_cons, Ex. cbn [rbind]. rewrite N1. cbn [rbind fst snd]. rewrite N2, app_assoc. split; [reflexivity|].
          intros F. apply Forall_app in F. destruct F as [F1 F2]. rewrite (C1 F1). cbn [rbind fst snd]. apply C2, F2. }
      destruct (N nodes _ s log (fun _ _ H => H) HR EW) as [R1 [new [N1 C1]]]. split; [exact R1|]. exists new. rewrite !run_sub, En, N1. cbn [rbind fst snd]. rewrite Ey. cbn [rbind].
      split; [reflexivity|]. intros F. rewrite (C1 F). cbn [rbind fst snd]. rewrite Ey. reflexivity.
  Qed.
End Noted.

(** ** Layer objects *)
Section Obj.
Variables (pw : Qc -> Qc) (ln2 : Qc) (acc : list (Qc * Qc) -> Qc).
Hypothesis HA : accumulator acc.

Lemma forward_observe q t record na y q' : call pw ln2 q t false record na = Ok (y, q') -> observe32 record (clip_fbw q) y = Ok q'.
Proof.
  unfold call, forward, observe32. intros E. apply rbind_ok in E. destruct E as [vf [_ E]]. apply rbind_ok in E. destruct E as [ys [_ E]]. cbv zeta in E.
  destruct (negb record); [congruence|]. apply rbind_ok in E. destruct E as [mn [E1 E]]. apply rbind_ok in E. destruct E as [mx [E2 E]]. injection E as <- <-.
  rewrite E1. cbn [rbind]. rewrite E2. reflexivity.
Qed.

Lemma hcall_exact o xs w b ys l' : obj_ok o -> parameters_exact (o_layer o) -> quantized_weights pw ln2 (o_layer o) w b -> layer_exact (o_layer o) w b xs ->
  hforward pw ln2 (o_layer o) xs false (o_record o) (fun _ => qz 0) (fun _ => qz 0) (fun _ => qz 0) = Ok (ys, l') ->
  hcall32 acc (o_layer o) xs (o_record o) = Ok (ys, l').
Proof.
  intros [L1 [L2 [L3 L4]]] HP HW HX E.
  destruct (layer32_call pw ln2 acc _ w b xs _ _ _ _ ys l' HA L1 L3 HP HW HX E) as [zs [t [y [E1 [E2 [E3 ->]]]]]].
  destruct (hfwd pw ln2 (o_layer o) xs (o_record o) L1 L2 L3 L4) as [mn [mx [Eh _]]]. rewrite Eh in E. injection E as _ <-.
  unfold hcall32. rewrite E1. cbn [rbind]. rewrite E2. cbn [rbind]. rewrite (forward_observe _ _ _ _ _ _ E3). cbn [rbind]. unfold set_mm. cbn [l_paq]. do 2 f_equal.
  f_equal. destruct (l_op (o_layer o)); [|reflexivity]. rewrite (clip_id_fbw _ L4). reflexivity.
Qed.

Variable st : store.
Hypothesis HSt : Forall obj_ok st.
(** The store differs from st in registers (and in the recording flag). *)
Definition alike (s : store) : Prop := Forall obj_ok s /\ length s = length st /\
  forall i o, nth_error st i = Some o -> exists o', nth_error s i = Some o' /\ twin o o'.

Lemma twin_exact o o' xs w b : twin o o' -> parameters_exact (o_layer o) /\ quantized_weights pw ln2 (o_layer o) w b /\ layer_exact (o_layer o) w b xs ->
  parameters_exact (o_layer o') /\ quantized_weights pw ln2 (o_layer o') w b /\ layer_exact (o_layer o') w b xs.
Proof. intros [[mn [mx E]] _]. rewrite E. destruct (o_layer o). exact (fun H => H). Qed.

Lemma alike_leaf x : hgq_layer x -> noted_leaf (call_layer pw ln2) (call_layer32 acc) (psem pw ln2 st) alike (layer_call_exact pw ln2 st) x.
Proof.
  intros HK vs s v s' [HO [HLn HT]] E. destruct x as [u k].
  assert (O : forall i, (k = KH i \/ k = KQuant i) -> alike s' /\ psem pw ln2 st (u, k) vs = Ok v /\ (layer_call_exact pw ln2 st (u, k) vs -> call_layer32 acc (u, k) vs s = Ok (v, s'))).
  { intros i Hk. assert (EC : call_obj pw ln2 i vs s = Ok (v, s')) by (destruct Hk; subst k; exact E).
    unfold call_obj in EC. apply rbind_ok in EC. destruct EC as [o' [Eo EC]]. pose proof Eo as Eg. apply get_ok in Eo.
    destruct (nth_error st i) as [o|] eqn:Est.
    2:{ exfalso. apply nth_error_None in Est. apply nth_error_lt in Eo. lia. }
    destruct (HT i o Est) as [o'' [Eo' T]]. assert (o'' = o') by congruence. subst o''.
    assert (Ok' : obj_ok o') by (rewrite Forall_forall in HO; apply HO; eapply nth_error_In, Eo).
    destruct (negb (sized_all (o_ins o') vs)) eqn:Es; [discriminate|]. apply rbind_ok in EC. destruct EC as [xs [Ez EC]]. apply rbind_ok in EC. destruct EC as [[ys l'] [Eh EC]]. cbn [fst snd] in EC.
    injection EC as <- <-. pose proof Ok' as [L1 [L2 [L3 L4]]]. destruct (hfwd pw ln2 (o_layer o') xs (o_record o') L1 L2 L3 L4) as [mn [mx [Eh' [RS _]]]].
    pose proof Eh as Eh0. rewrite Eh' in Eh. injection Eh as <- <-.
    assert (T' : twin o (with_layer o' (set_mm (o_layer o') mn mx))).
    { eapply twin_trans; [exact T|]. split; [exists mn, mx; reflexivity|split; reflexivity]. }
    split; [|split].
    - split; [|split].
      + apply Forall_forall. intros oj Hj. apply In_nth_error in Hj. destruct Hj as [j Hj]. rewrite set_nth_error in Hj. destruct (Nat.eqb_spec i j) as [Eij|Hne].
        * destruct (Nat.ltb i (length s)); [|discriminate]. injection Hj as <-. exact (obj_ok_mm o' mn mx _ Ok' RS).
        * rewrite Forall_forall in HO. apply HO. eapply nth_error_In, Hj.
      + rewrite set_nth_length. exact HLn.
      + intros j oj Ej. rewrite set_nth_error. destruct (Nat.eqb_spec i j) as [<-|Hne]; [|apply HT, Ej].
        rewrite (proj2 (Nat.ltb_lt _ _)) by (apply (nth_error_lt _ _ _ Eo)). assert (oj = o) by congruence. subst oj. eauto.
    - assert (O0 : obj_ok o) by (rewrite Forall_forall in HSt; apply HSt; eapply nth_error_In, Est). destruct O0 as [M1 [M2 [M3 M4]]].
      destruct (hfwd pw ln2 (o_layer o) xs (o_record o) M1 M2 M3 M4) as [mn0 [mx0 [E0 _]]].
      assert (EC : call_layer pw ln2 (u, k) vs st = call_obj pw ln2 i vs st) by (destruct Hk; subst k; reflexivity). unfold psem. rewrite EC. unfold call_obj, get. rewrite Est. cbn [rbind].
      destruct T as [[a [b EL]] [EA EI]]. rewrite <- EI, Es, Ez. cbn [rbind]. rewrite E0. cbn [rbind fst]. f_equal. apply map_ext. intros x. rewrite EL. symmetry. apply yout_mm.
    - intros HX. assert (HX' : parameters_exact (o_layer o') /\ exists w b, quantized_weights pw ln2 (o_layer o') w b /\ layer_exact (o_layer o') w b xs).
      { assert (G : parameters_exact (o_layer o) /\ exists w b, quantized_weights pw ln2 (o_layer o) w b /\ layer_exact (o_layer o) w b xs) by (destruct Hk; subst k; apply (HX o xs Est Ez)).
        destruct G as [G1 [w [b [G2 G3]]]]. destruct (twin_exact o o' xs w b T (conj G1 (conj G2 G3))) as [A [B C]]. eauto. }
      destruct HX' as [A [w [b [B C]]]]. pose proof (hcall_exact o' xs w b _ _ Ok' A B C Eh0) as HC.
      assert (EC : call_layer32 acc (u, k) vs s = call_obj32 acc i vs s) by (destruct Hk; subst k; reflexivity). rewrite EC.
      unfold call_obj32. rewrite Eg. cbn [rbind]. rewrite Es, Ez. cbn [rbind]. rewrite HC. reflexivity. }
  assert (N : forall r : result (list sample), call_layer pw ln2 (u, k) vs s = rbind r (fun v => Ok (v, s)) -> call_layer pw ln2 (u, k) vs st = rbind r (fun v => Ok (v, st)) ->
     call_layer32 acc (u, k) vs s = rbind r (fun v => Ok (v, s)) ->
     alike s' /\ psem pw ln2 st (u, k) vs = Ok v /\ (layer_call_exact pw ln2 st (u, k) vs -> call_layer32 acc (u, k) vs s = Ok (v, s'))).
  { intros r E1 E2 E3. rewrite E1 in E. unfold psem. rewrite E2, E3. destruct r as [w|]; [|discriminate]. cbn [rbind] in *. injection E as -> <-. split; [split; auto|]. split; reflexivity. }
  destruct k as [i|i|c out|g|p| |g|q out|]; try (apply (O i); auto; fail).
  - apply (N (rbind (one vs) (fun b => if sized out b then Ok b else Raise))); unfold call_layer, call_layer32; cbn [snd]; destruct (one vs) as [b|]; try reflexivity; cbn [rbind]; destruct (sized out b); reflexivity.
  - apply (N (rbind (zip_samples vs) (fun xs => Ok (map g xs)))); unfold call_layer, call_layer32; cbn [snd]; destruct (zip_samples vs); reflexivity.
  - apply (N (one vs)); unfold call_layer, call_layer32; cbn [snd]; destruct (one vs); reflexivity.
  - apply (N (one vs)); unfold call_layer, call_layer32; cbn [snd]; destruct (one vs); reflexivity.
  - apply (N (rbind (zip_samples vs) (fun xs => Ok (map g xs)))); unfold call_layer, call_layer32; cbn [snd]; destruct (zip_samples vs); reflexivity.
  - destruct HK.
  - apply (N (rbind (one vs) (fun b => Ok (map (map relu) b)))); unfold call_layer, call_layer32; cbn [snd]; destruct (one vs); reflexivity.
Qed.

Lemma noting_note m B log : run (noting pw ln2 st) m B log = run (note (psem pw ln2 st)) m B log.
Proof.
  apply run_ext. apply leaves_all. intros x vs s. unfold noting, note, psem. destruct (call_layer pw ln2 x vs st); reflexivity.
Qed.

Lemma net_exact m B s ys s' : leaves hgq_layer m -> alike s -> call_model pw ln2 m B s = Ok (ys, s') ->
  alike s' /\ (every_call pw ln2 st (layer_call_exact pw ln2 st) m B -> call_model32 acc m B s = Ok (ys, s')).
Proof.
  intros HL HS E. assert (G : leaves (noted_leaf (call_layer pw ln2) (call_layer32 acc) (psem pw ln2 st) alike (layer_call_exact pw ln2 st)) m) by (eapply leaves_impl; [exact alike_leaf|exact HL]).
  destruct (run_noted _ _ _ _ _ m G B s ys s' [] HS E) as [HS' [new [N C]]]. split; [exact HS'|]. intros HE. apply C. cbn [app] in N.
  apply (HE ys new). rewrite noting_note. exact N.
Qed.

Lemma feed_exact m bs : forall s rs s', leaves hgq_layer m -> alike s -> (forall B, In B bs -> every_call pw ln2 st (layer_call_exact pw ln2 st) m B) ->
  feed pw ln2 m bs s = Ok (rs, s') -> feed32 acc m bs s = Ok (rs, s').
Proof.
  induction bs as [|B bs IH]; intros s rs s' HL HS HE E; [exact E|]. cbn [feed feed32] in *. apply rbind_ok in E. destruct E as [[ys s1] [E1 E]]. cbn [fst snd] in E.
  apply rbind_ok in E. destruct E as [[rs' s2] [E2 E]]. cbn [fst snd] in E. injection E as <- <-.
  destruct (net_exact m B s ys s1 HL HS E1) as [H1 C1]. rewrite (C1 (HE B (or_introl eq_refl))). cbn [rbind fst snd].
  rewrite (IH s1 rs' s2 HL H1 (fun B' H => HE B' (or_intror H)) E2). reflexivity.
Qed.

Lemma each_alike g ids : (forall o o', obj_ok o -> g o = Ok o' -> obj_ok o' /\ twin o o') -> forall s s', alike s -> each g ids s = Ok s' -> alike s'.
Proof.
  intros Hg. induction ids as [|i ids IH]; intros s s' HS E; cbn [each] in E; [injection E as <-; exact HS|].
  apply rbind_ok in E. destruct E as [o [Eo E]]. apply get_ok in Eo. apply rbind_ok in E. destruct E as [o' [Eg E]]. apply (IH _ _) in E; [exact E|]. clear E.
  destruct HS as [HO [HLn HT]]. assert (Ok' : obj_ok o) by (rewrite Forall_forall in HO; apply HO; eapply nth_error_In, Eo). destruct (Hg o o' Ok' Eg) as [Hg1 Hg2].
  split; [|split].
  - apply Forall_forall. intros oj Hj. apply In_nth_error in Hj. destruct Hj as [j Hj]. rewrite set_nth_error in Hj. destruct (Nat.eqb_spec i j) as [Eij|Hne].
    + destruct (Nat.ltb i (length s)); [|discriminate]. injection Hj as <-. exact Hg1.
    + rewrite Forall_forall in HO. apply HO. eapply nth_error_In, Hj.
  - rewrite set_nth_length. exact HLn.
  - intros j oj Ej. rewrite set_nth_error. destruct (Nat.eqb_spec i j) as [<-|Hne]; [|apply HT, Ej].
    rewrite (proj2 (Nat.ltb_lt _ _)) by (apply (nth_error_lt _ _ _ Eo)). destruct (HT i oj Ej) as [o1 [E1 T1]]. assert (o1 = o) by congruence. subst o1.
    exists o'. split; [reflexivity|]. eapply twin_trans; eassumption.
Qed.
Lemma alike_refl : alike st.
Proof. split; [exact HSt|]. split; [reflexivity|]. intros i o H. exists o. split; [exact H|]. apply twin_refl. Qed.

Lemma trace_exact eb m ds bsz rst nb bops rs st' : leaves hgq_layer m ->
  (forall B, In B (batches ds bsz) -> every_call pw ln2 st (layer_call_exact pw ln2 st) m B) ->
  trace_minmax pw ln2 eb m ds bsz rst (qz 1) nb st = Ok (bops, rs, st') -> trace_minmax32 acc eb m ds bsz rst (qz 1) nb st = Ok (bops, rs, st').
Proof.
  intros HL HE E. unfold trace_minmax, trace_minmax32 in *. apply rbind_ok in E. destruct E as [st1 [E1 E]].
  assert (A1 : alike st1).
  { destruct rst; [|injection E1 as <-; apply alike_refl]. eapply (each_alike start_obj); [|apply alike_refl|exact E1].
    intros o o' Ho Eo. split; [eapply obj_ok_start; eassumption|]. unfold start_obj in Eo. injection Eo as <-. split; [|split; reflexivity].
    eexists. eexists. reflexivity. }
  rewrite E1. cbn [rbind]. destruct (Nat.eqb bsz 0); [discriminate|]. apply rbind_ok in E. destruct E as [[rs1 st2] [E2 E]].
  rewrite (feed_exact m _ st1 rs1 st2 HL A1 HE E2). cbn [rbind]. exact E.
Qed.
End Obj.
