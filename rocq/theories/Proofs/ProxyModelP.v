(** The proxy model on the calibration data (C32). *)
From Coq Require Import ZArith Qcanon List Bool String Lia.
From Verif Require Import Base.Num Base.NumFacts Base.Tensor Model.FixedPoint Model.Quantizer Model.Layers Model.Graph
  Model.Convert Model.Trace Spec.Fixed Spec.Quant Spec.History Spec.Layer Spec.Graph Spec.Trace Proofs.TensorP Proofs.QuantizerP Proofs.RecordP
  Proofs.BitsP Proofs.HistoryP Proofs.CallP Proofs.FixedPointP Proofs.FixedPointLayerP Proofs.SampleP Proofs.LayersP Proofs.ConvertP
  Proofs.TraceP Proofs.FeedP Proofs.TraceMinmaxP Proofs.CoverP.
Import ListNotations.
Local Open Scope nat_scope.

(** ** Layers of a converted model *)
Section Emit.
  Context {L : Type}.
  Variable uid : L -> nat.
  Variable xf : option L -> result (xout (L := L)).
  Variable P : L -> Prop.
  Hypothesis HP : forall x y, xf_chain uid xf x = Ok (XLayer y) -> P y.
  Definition einv (s : cst (L := L)) : Prop := Forall (fun o => P (fst (fst o))) (c_out s).
  Lemma conv_einv : forall fuel path k inp s t s', einv s -> conv uid xf fuel path k inp s = Ok (t, s') -> einv s'.
  Proof.
    induction fuel as [|fu IH]; intros path k inp s t s' H E; [discriminate|]. destruct k as [x|nin nodes outs].
    - rewrite conv_leaf in E. destruct (xf_chain uid xf x) as [[|y|m]|] eqn:Ex; cbn [rbind] in E; [| | |discriminate].
      + injection E as <- <-. assumption.
      + unfold emit in E. destruct (next_name _ _) as [n u]. destruct (flat_tv inp) as [ins|]; cbn [rbind] in E; [|discriminate].
        injection E as <- <-. unfold einv. cbn [c_out]. apply Forall_app. split; [exact H|]. repeat constructor. eapply HP, Ex.
      + eapply IH; eassumption.
    - rewrite conv_sub in E. destruct (mapS _ outs _) as [[ts ss']|] eqn:Em; cbn [rbind fst snd] in E; [|discriminate]. injection E as <- <-.
      assert (G : forall d id ss t ss', einv (snd ss) -> getf (conv uid xf fu) path nin nodes d id ss = Ok (t, ss') -> einv (snd ss')).
      { induction d as [|d IHd]; intros id ss t0 ss0 Q Eg; [discriminate|]. rewrite getf_S in Eg.
        destruct (lookup _ _); [injection Eg as <- <-; assumption|]. destruct (Nat.ltb _ _); [discriminate|].
        destruct (nth_error _ _) as [[k ins]|]; [|discriminate].
        destruct (mapS _ ins ss) as [[ts1 ss1]|] eqn:Em1; cbn [rbind fst snd] in Eg; [|discriminate].
        destruct (conv _ _ _ _ _ _ _) as [[t1 s1]|] eqn:Ec; cbn [rbind fst snd] in Eg; [|discriminate]. injection Eg as <- <-.
        apply (mapS_inv (fun ss => einv (snd ss))) in Em1; [|intros; eapply IHd; eassumption|assumption].
        apply (IH _ _ _ _ _ _ Em1) in Ec. exact Ec. }
      apply (mapS_inv (fun ss => einv (snd ss))) in Em; [assumption|intros; eapply G; eassumption|assumption].
  Qed.
  Lemma convert_leaves fuel m names m' ns s : convert_model uid xf fuel m names = Ok (m', ns, s) -> leaves P m'.
  Proof.
    unfold convert_model. destruct m as [|nin nodes outs]; [discriminate|].
    destruct (conv _ _ _ _ _ _ _) as [[t s1]|] eqn:E; cbn [rbind fst snd]; [|discriminate].
    destruct (flat_tv t); cbn [rbind]; [|discriminate]. intros H. injection H as <- <- <-.
    apply conv_einv in E; [|constructor]. constructor. intros k ins Hk. apply in_map_iff in Hk. destruct Hk as [o [Ho Hin]].
    injection Ho as <- <-. constructor. unfold einv in E. rewrite Forall_forall in E. apply E, Hin.
  Qed.
End Emit.

(** ** Simulations between runs *)
Section Sim.
  Context {L V St : Type}.
  Variable f : L -> list V -> St -> result (V * St).

  Lemma run_nodes_cons k ins ns vals st : run_nodes f ((k, ins) :: ns) vals st =
    rbind (rseq (map (pick vals) ins)) (fun xs => rbind (run f k xs st) (fun r => run_nodes f ns (vals ++ [fst r]) (snd r))).
  Proof. reflexivity. Qed.

  Section Guard.
  Variables (h g : L -> list V -> result V) (Fwd Inv : St -> Prop).
  Definition guard_at (k : klayer L) : Prop := forall ins s outs s', Fwd s -> run f k ins s = Ok (outs, s') ->
    Fwd s' /\ (Inv s' -> Inv s) /\ (Inv s' -> forall outs2, eval h k ins = Ok outs2 -> outs2 = outs /\ eval g k ins = Ok outs).
  Definition guard_leaf (x : L) : Prop := forall vs s v s', Fwd s -> f x vs s = Ok (v, s') ->
    Fwd s' /\ (Inv s' -> Inv s) /\ (Inv s' -> forall v2, h x vs = Ok v2 -> v2 = v /\ g x vs = Ok v).

  Lemma run_guard k : leaves guard_leaf k -> guard_at k.
  Proof.
    induction k as [x|nin nodes outs IH] using klayer_ind'; intros Hl ins s os s' F E.
    - inversion Hl as [y H|]; subst. cbn [run] in E. apply rbind_ok in E. destruct E as [[v s1] [E1 E]]. cbn [fst snd] in E. injection E as <- <-.
      destruct (H ins s v s1 F E1) as [A [B C]]. split; [assumption|]. split; [assumption|]. intros I outs2 E2.
      unfold eval in E2. cbn [run] in E2. unfold pure in E2. destruct (h x ins) as [v2|] eqn:Eh; [|discriminate]. cbn in E2. injection E2 as <-.
      destruct (H ins s v s1 F E1) as [_ [_ C2]]; destruct (C2 I v2 Eh) as [-> Eg]. split; [reflexivity|]. unfold eval. cbn [run]. unfold pure. rewrite Eg. reflexivity.
    - inversion Hl as [|? ? ? HL]; subst. rewrite run_sub in E. destruct (Nat.eqb (length ins) nin) eqn:En; [|discriminate].
      apply rbind_ok in E. destruct E as [[W s1] [EW E]]. cbn [fst snd] in E. apply rbind_ok in E. destruct E as [ys [Ey E]]. injection E as <- <-.
      assert (N : forall ns vals s, (forall k i, In (k, i) ns -> In (k, i) nodes) -> Fwd s -> run_nodes f ns vals s = Ok (W, s1) ->
        Fwd s1 /\ (Inv s1 -> Inv s) /\ (Inv s1 -> forall W2 u, run_nodes (pure h) ns vals tt = Ok (W2, u) -> W2 = W /\ run_nodes (pure g) ns vals tt = Ok (W, tt))).
      { induction ns as [|[k i] ns IHn]; intros vals s0 Hin F0 E0.
        - injection E0 as -> ->. split; [assumption|]. split; [auto|]. intros _ W2 u E2. injection E2 as <- _. auto.
        - rewrite run_nodes_cons in E0. apply rbind_ok in E0. destruct E0 as [xs [Ex E0]]. apply rbind_ok in E0. destruct E0 as [[o s2] [Eo E0]].
          cbn [fst snd] in E0.
          destruct (IH k i (Hin _ _ (or_introl eq_refl)) (HL k i (Hin _ _ (or_introl eq_refl))) xs s0 o s2 F0 Eo) as [F2 [I2 C2]].
          destruct (IHn _ _ (fun k' i' H => Hin k' i' (or_intror H)) F2 E0) as [F3 [I3 C3]].
          split; [assumption|]. split; [auto|]. intros I W2 u E2. cbn [run_nodes] in *. rewrite Ex in *. cbn [rbind] in *.
          rewrite run_pure in E2. destruct (eval h k xs) as [o2|] eqn:Eh; [|discriminate]. cbn [rbind fst snd] in E2.
          destruct (C2 (I3 I) o2 eq_refl) as [-> Eg]. rewrite run_pure, Eg. cbn [rbind fst snd]. eapply C3; eassumption. }
      destruct (N nodes _ s (fun _ _ H => H) F EW) as [F1 [I1 C1]]. split; [assumption|]. split; [assumption|].
      intros I outs2 E2. unfold eval in *. rewrite run_sub in *. rewrite En in *.
      destruct (run_nodes (pure h) nodes _ tt) as [[W2 u]|] eqn:E2'; [|discriminate]. cbn [rbind fst snd] in E2.
      destruct (C1 I W2 u eq_refl) as [-> Eg]. rewrite Eg. cbn [rbind fst snd]. rewrite Ey in *. cbn [rbind fst snd] in *.
      injection E2 as <-. auto.
  Qed.
  End Guard.

  (** A run that never changes the state is a pure evaluation. *)
  Section Pure.
  Variables (h : L -> list V -> result V) (s : St).
  Lemma run_const k : leaves (fun x => forall vs, f x vs s = rbind (h x vs) (fun v => Ok (v, s))) k ->
    forall ins, run f k ins s = rbind (eval h k ins) (fun r => Ok (r, s)).
  Proof.
    induction k as [x|nin nodes outs IH] using klayer_ind'; intros Hl ins.
    - inversion Hl as [y H|]; subst. unfold eval. cbn [run]. unfold pure. rewrite H. destruct (h x ins); reflexivity.
    - inversion Hl as [|? ? ? HL]; subst. unfold eval. rewrite !run_sub. destruct (Nat.eqb _ _); [|reflexivity].
      assert (N : forall ns vals, (forall k i, In (k, i) ns -> In (k, i) nodes) ->
        run_nodes f ns vals s = rbind (run_nodes (pure h) ns vals tt) (fun r => Ok (fst r, s))).
      { induction ns as [|[k i] ns IHn]; intros vals Hin; [reflexivity|]. cbn [run_nodes].
        destruct (rseq _) as [xs|]; [|reflexivity]. cbn [rbind].
        rewrite (IH k i (Hin _ _ (or_introl eq_refl)) (HL k i (Hin _ _ (or_introl eq_refl)))).
        rewrite run_pure. destruct (eval h k xs) as [o|]; [|reflexivity]. cbn [rbind fst snd].
        apply IHn. intros k' i' H. apply Hin. right. assumption. }
      rewrite (N nodes _ (fun _ _ H => H)). destruct (run_nodes (pure h) nodes _ tt) as [[W []]|]; [|reflexivity].
      cbn [rbind fst snd]. destruct (rseq _); reflexivity.
  Qed.
  End Pure.
End Sim.

Lemma eval_mono {L V} (h g : L -> list V -> result V) k : leaves (fun x => forall vs v, h x vs = Ok v -> g x vs = Ok v) k ->
  forall ins outs, eval h k ins = Ok outs -> eval g k ins = Ok outs.
Proof.
  intros Hl ins outs E.
  assert (G : guard_at (pure h) h g (fun _ => True) (fun _ => True) k).
  { apply run_guard. clear -Hl. induction Hl as [x H|nin nodes outs _ IH]; constructor; [|assumption].
    intros vs s v s' _ E. unfold pure in E. destruct (h x vs) as [w|] eqn:Eh; [|discriminate]. injection E as <- <-.
    split; [exact I|]. split; [auto|]. intros _ v2 E2. injection E2 as <-. split; [reflexivity|]. apply H, Eh. }
  unfold eval in E. apply rbind_ok in E. destruct E as [[o s] [E1 E]]. injection E as <-.
  destruct (G ins tt o s I E1) as [_ [_ C]]. apply (C I o). unfold eval. rewrite E1. reflexivity.
Qed.

Lemma leaves_impl {L} (P Q : L -> Prop) k : (forall x, P x -> Q x) -> leaves P k -> leaves Q k.
Proof. intros H. induction 1 as [x Hx|nin nodes outs _ IH]; constructor; auto. Qed.
Lemma leaves_and {L} (P Q : L -> Prop) k : leaves P k -> leaves Q k -> leaves (fun x => P x /\ Q x) k.
Proof.
  induction 1 as [x Hx|nin nodes outs _ IH]; intros HQ; inversion HQ; subst; constructor; auto. intros k ins H. eapply IH; eauto.
Qed.

(** Runs depend on the layer functions only. *)
Lemma run_ext {L V St} (f g : L -> list V -> St -> result (V * St)) k : leaves (fun x => forall vs s, f x vs s = g x vs s) k ->
  forall ins s, run f k ins s = run g k ins s.
Proof.
  induction k as [x|nin nodes outs IH] using klayer_ind'; intros Hl ins s.
  - inversion Hl as [y H|]; subst. cbn [run]. rewrite H. reflexivity.
  - inversion Hl as [|? ? ? HL]; subst. rewrite !run_sub. destruct (Nat.eqb _ _); [|reflexivity].
    assert (N : forall ns vals s, (forall k i, In (k, i) ns -> In (k, i) nodes) -> run_nodes f ns vals s = run_nodes g ns vals s).
    { induction ns as [|[k i] ns IHn]; intros vals s0 Hin; [reflexivity|]. rewrite !run_nodes_cons. destruct (rseq _) as [xs|]; [|reflexivity]. cbn [rbind].
      rewrite (IH k i (Hin _ _ (or_introl eq_refl)) (HL k i (Hin _ _ (or_introl eq_refl)))). destruct (run g k xs s0) as [[o s1]|]; [|reflexivity]. cbn [rbind fst snd].
      apply IHn. intros k' i' H. apply Hin. right. assumption. }
    rewrite (N nodes _ s (fun _ _ H => H)). reflexivity.
Qed.
