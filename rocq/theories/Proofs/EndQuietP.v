(** A network that describes a converted model is quiet where the quantizers of
    the model accept values of their formats only (C82). *)
From Coq Require Import ZArith Qcanon List Bool String Lia Arith.
From Verif Require Import Base.Num Base.NumFacts Base.Tensor Model.FixedPoint Model.Quantizer Model.Layers Model.Graph Model.Convert Model.Trace Model.Precision Model.Lut
  Spec.Fixed Spec.Precision Spec.NetEval Spec.Firmware Spec.Graph Spec.Trace Spec.EndToEnd Spec.Quiet Proofs.CallP Proofs.TensorP Proofs.SampleP Proofs.ConvertP Proofs.FormatP Proofs.ProxyLayerP Proofs.NetEvalP Proofs.EndToEndP.
Import ListNotations.
Local Open Scope nat_scope.

Section Sample.
  Variable (pw : Qc -> Qc) (ln2 : Qc) (st : store).
  Variable (s : pst) (geo : nat -> list recipe) (opaque : nat -> list (list Qc) -> list Qc) (size : nat -> nat).
  Variable (feed : nat -> list Qc) (N k : nat).
  Hypothesis Hk : k < N.
  Notation sem := (gsem pw ln2 st true).

  (** Layer n reads values of its formats, if it is a quantizer. *)
  Definition calm (n : nat) (kd : pkind) (ps : list nat) (bs : list (list (list Qc))) : Prop :=
    forall q p r j o c b x, kd = NFpq q -> ps = [p] -> In r (geo n) -> r_src r = [Some (0, j)] -> nth_error s q = Some o ->
      nth_error (data (cfgs o)) (r_ch r) = Some c -> nth_error bs p = Some b -> nth_error (at_k k b) j = Some x -> in_format o c x.

  Lemma layer_calm n kd ps x bs xs y : same_layer s geo opaque size n kd ps (snd x) -> Forall2 (fun p b => nth_error bs p = Some b) ps xs ->
    Forall (fun b => length b = N) xs -> sem x xs = Ok y -> calm n kd ps bs.
  Proof.
    intros H F L E q p r j o c b z -> -> IR SR Eo Ec Eb Ez. destruct x as [u kn0]. cbn [snd] in H.
    destruct kn0 as [i|i|cf out|g|d| |g|q' out|]; cbn [same_layer] in H; try contradiction; [destruct H as [[] _]| |destruct H as (p' & C & _); discriminate].
    destruct H as (i & p' & Ei & Ep & Es & S1 & S2 & HE). injection Ei as <-. injection Ep as <-. assert (q' = o) by congruence. subst q'.
    inversion F as [|? b' ? ? Eb' F']; subst. inversion F'; subst. assert (b' = b) by congruence. subst b'.
    pose proof (gsem_guard pw ln2 st true u o out b y eq_refl E) as G. rewrite fpq_guard_spec in G.
    inversion L as [|? ? Lb _]; subst. assert (IN : In (at_k k b) b) by (apply nth_In; lia).
    destruct HE as [(c0 & C & GE)|(bw & Sh & W & Bs & GE)]; rewrite GE in IR; apply in_map_iff in IR as [e [<- He]]; apply in_seq in He; cbn [r_src r_ch] in SR, Ec;
      injection SR as <-; specialize (G (at_k k b) e IN ltac:(lia)); rewrite (nth_error_nth _ _ (qz 0) Ez) in G; apply fmt_ok_spec; unfold cfg_at in G.
    - rewrite C in G, Ec. cbn in G, Ec. injection Ec as <-. exact G.
    - rewrite Sh, (nth_error_nth _ _ (mkCfg 0 0 0) Ec) in G. exact G.
  Qed.

  Lemma go_calm nodes : forall rest bs W, length rest = length nodes ->
    (forall j k' ins, nth_error nodes j = Some (k', ins) -> exists x kd, k' = Leaf x /\ Forall (fun r => snd r = 0) ins /\
       nth_error rest j = Some (kd, map fst ins) /\ same_layer s geo opaque size (length bs + j) kd (map fst ins) (snd x)) ->
    (forall n b, nth_error bs n = Some b -> good size N n b) ->
    run_nodes (pure sem) nodes (map (fun b => [b]) bs) tt = Ok (W, tt) ->
    exists bs', W = map (fun b => [b]) (bs ++ bs') /\ NetEval.run s geo feed opaque (fun _ => None) rest (map (at_k k) bs) = Ok (map (at_k k) (bs ++ bs')) /\
      forall j kd ps, nth_error rest j = Some (kd, ps) -> calm (length bs + j) kd ps (bs ++ bs').
  Proof.
    induction nodes as [|[k' ins] nodes IH]; intros rest bs W L D G E; cbn [run_nodes] in E.
    - destruct rest; [|discriminate L]. exists []. rewrite app_nil_r. split; [congruence|]. split; [reflexivity|]. intros [|j]; discriminate.
    - destruct rest as [|[kd ps] rest]; [discriminate L|].
      destruct (D 0 k' ins eq_refl) as (x & kd' & -> & Z & Er & SL). cbn in Er. injection Er as -> ->. rewrite Nat.add_0_r in SL.
      destruct (rseq _) as [xs|] eqn:Ep; [|discriminate]. cbn [rbind Graph.run] in E.
      destruct (picks_same k bs ins xs Z Ep) as [A B].
      unfold pure at 1 in E. destruct (sem x xs) as [y|] eqn:Ec; [|discriminate]. cbn [rbind fst snd] in E.
      assert (F : Forall2 (good size N) (map fst ins) xs) by (clear -B G; induction B as [|p b ps bs' H B IH]; constructor; auto).
      pose proof (gsem_psem _ _ _ _ _ _ _ Ec) as Ec'. unfold psem in Ec'. destruct (call_layer pw ln2 x xs st) as [[y' st1]|] eqn:Ey; [|discriminate]. cbn [rbind fst] in Ec'. assert (y' = y) by congruence. subst y'.
      destruct (layer_same pw ln2 s geo opaque size feed N k Hk (length bs) kd' (map fst ins) x xs st y st1 SL F Ey) as [O GY].
      assert (M : forall b, map (fun b => [b]) bs ++ [[b]] = map (fun b : list (list Qc) => [b]) (bs ++ [b])) by (intros; rewrite map_app; reflexivity). rewrite M in E.
      destruct (IH rest (bs ++ [y]) W) as (bs' & EW & R & C).
      + cbn in L. lia.
      + intros j k1 ins1 E1. destruct (D (S j) k1 ins1 E1) as (x1 & kd1 & A1 & A2 & A3 & A4). exists x1, kd1. split; [exact A1|]. split; [exact A2|]. split; [exact A3|].
        rewrite app_length. cbn [length]. replace (length bs + 1 + j) with (length bs + S j) by lia. exact A4.
      + intros n b Eb. rewrite nth_snoc in Eb. destruct (Nat.eqb_spec n (length bs)) as [->|]; [assert (y = b) by congruence; subst; exact GY|apply G; exact Eb].
      + exact E.
      + rewrite <- app_assoc in EW, R. cbn [app] in EW, R. exists (y :: bs'). split; [exact EW|]. split.
        * cbn [NetEval.run]. rewrite A. cbn [rbind]. rewrite map_length, O. cbn [rbind]. rewrite <- R, map_app. reflexivity.
        * intros [|j] kd1 ps1 E1.
          -- cbn in E1. injection E1 as <- <-. rewrite Nat.add_0_r. apply (layer_calm (length bs) kd' (map fst ins) x (bs ++ y :: bs') xs y SL).
             ++ clear -B. induction B as [|p b ps bs0 H B IH]; constructor; [|exact IH]. rewrite nth_error_app1; [exact H|]. apply nth_error_Some. congruence.
             ++ clear -F. induction F as [|p b ps bs0 H F IH]; constructor; [apply H|exact IH].
             ++ exact Ec.
          -- specialize (C j kd1 ps1 E1). rewrite app_length, <- app_assoc in C. cbn [length app] in C. replace (length bs + S j) with (length bs + 1 + j) by lia. exact C.
  Qed.
End Sample.

(** The whole network. *)
Lemma describes_quiet pw ln2 st s geo opaque size net m B N k ys : describes s geo opaque size net m -> k < N ->
  (forall i b, nth_error B i = Some b -> good size N i b) -> eval (gsem pw ln2 st true) m B = Ok ys ->
  exists out, NetEval.run s geo (sample_feed B k) opaque (fun _ => None) net [] = Ok out /\ quiet net s geo out /\
    forall o i, nth_error (output_layers m) o = Some i -> exists y, nth_error ys o = Some y /\ nth_error out i = Some (nth k y []).
Proof.
  destruct m as [x|nin nodes outs]; cbn [describes]; [contradiction|]. intros (L & HI & HN & HO) Hk G E.
  unfold eval in E. rewrite run_sub in E. destruct (Nat.eqb_spec (length B) nin) as [LB|]; [|discriminate].
  destruct (run_nodes _ _ _ _) as [[W []]|] eqn:Er; [|discriminate]. cbn [rbind fst snd] in E. destruct (rseq _) as [zs|] eqn:Eo; [|discriminate]. cbn [rbind fst] in E.
  assert (zs = ys) by congruence. subst zs.
  destruct (go_calm pw ln2 st s geo opaque size (sample_feed B k) N k Hk nodes (skipn nin net) B W) as (bs' & -> & R & C).
  - rewrite skipn_length. change (List.length net - nin = List.length nodes). rewrite L. lia.
  - intros j k' ins Ej. destruct (HN j k' ins Ej) as (x & kd & A1 & A2 & A3 & A4). exists x, kd. rewrite LB. split; [exact A1|]. split; [exact A2|]. split; [|exact A4].
    rewrite nth_error_skip. exact A3.
  - exact G.
  - exact Er.
  - exists (map (at_k k) (B ++ bs')). split; [|split].
    + rewrite (run_inputs _ _ _ _ _ nin net [] HI). cbn [app length].
      assert (M : map (sample_feed B k) (seq 0 nin) = map (at_k k) B).
      { apply (nth_ext _ _ [] []); [rewrite !map_length, seq_length; lia|]. intros i Hi. rewrite map_length, seq_length in Hi. rewrite nth_map_seq by exact Hi.
        rewrite (nth_indep _ [] (at_k k [])) by (rewrite map_length; lia). rewrite map_nth. reflexivity. }
      rewrite M. exact R.
    + intros m q p r j o c xs x Em IR SR Eq Ec Exs Ex. destruct (Nat.lt_ge_cases m nin) as [H|H]; [rewrite (HI m H) in Em; discriminate|].
      specialize (C (m - nin) (NFpq q) [p]). rewrite nth_error_skip, LB in C. replace (nin + (m - nin)) with m in C by lia. specialize (C Em).
      rewrite nth_error_map in Exs. destruct (nth_error (B ++ bs') p) as [b|] eqn:Eb; [|discriminate]. cbn in Exs. injection Exs as <-.
      exact (C q p r j o c b x eq_refl eq_refl IR SR Eq Ec Eb Ex).
    + cbn [output_layers]. clear -Eo HO. revert ys Eo. induction outs as [|[p z] outs IH]; intros ys Eo o i Ho; [destruct o; discriminate|].
      inversion HO as [|? ? Z0 Z']; subst. cbn in Z0. subst z. cbn [map rseq] in Eo. unfold pick at 1 in Eo. cbn [fst snd] in Eo. rewrite nth_error_map in Eo.
      destruct (nth_error (B ++ bs') p) as [b|] eqn:Eb; cbn in Eo; [|discriminate]. destruct (rseq _) as [t|]; [|discriminate]. cbn in Eo. assert (ys = b :: t) by congruence. subst ys.
      destruct o as [|o]; cbn in Ho |- *; [injection Ho as <-; exists b; split; [reflexivity|rewrite nth_error_map, Eb; reflexivity]|].
      apply (IH Z' t eq_refl o i Ho).
Qed.
