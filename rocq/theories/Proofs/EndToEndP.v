(** A network that describes a model computes, sample by sample, what the model
    computes (Spec/EndToEnd.v). *)
From Coq Require Import ZArith Qcanon List Bool String Lia Arith.
From Verif Require Import Base.Num Base.NumFacts Base.Tensor Model.FixedPoint Model.Quantizer Model.Layers Model.Graph Model.Convert Model.Trace Model.Precision Model.Lut
  Spec.Fixed Spec.Precision Spec.NetEval Spec.Firmware Spec.Trace Spec.EndToEnd Proofs.CallP Proofs.TensorP Proofs.SampleP Proofs.ConvertP Proofs.ProxyLayerP Proofs.NetEvalP.
Import ListNotations.
Local Open Scope nat_scope.

Lemma Forall2_map_r {A B C} (R : A -> C -> Prop) (f : B -> C) l l' : Forall2 (fun a b => R a (f b)) l l' -> Forall2 R l (map f l').
Proof. induction 1; constructor; assumption. Qed.

Lemma nth_error_skip {A} n : forall (l : list A) j, nth_error (skipn n l) j = nth_error l (n + j).
Proof. induction n as [|n IH]; intros [|a l] j; try reflexivity; [cbn; destruct j; reflexivity|apply IH]. Qed.

Section Sample.
  Variable (pw : Qc -> Qc) (ln2 : Qc).
  Variable (s : pst) (geo : nat -> list recipe) (opaque : nat -> list (list Qc) -> list Qc) (size : nat -> nat).
  Variable (feed : nat -> list Qc) (N k : nat).
  Hypothesis Hk : k < N.

  Notation lout := (layer_out s geo feed opaque (fun _ => None)).

  (** Sample k of a batch. *)
  Definition at_k (b : list (list Qc)) : list Qc := nth k b [].
  Definition good (n : nat) (b : list (list Qc)) : Prop := length b = N /\ Forall (fun x => length x = size n) b.

  Lemma at_k_size n b : good n b -> length (at_k b) = size n.
  Proof. intros [L F]. rewrite Forall_forall in F. apply F. apply nth_In. lia. Qed.

  Lemma fpq_layer n i q out b y : nth_error s i = Some q -> elementwise geo n q out -> Forall (fun x => length x = prodn out) b ->
    length b = N -> fpq_call q false (batch_tensor out b) = Ok y ->
    lout n (NFpq i) [at_k b] = Ok (at_k (samples out y)) /\ length (samples out y) = N /\ Forall (fun x => length x = prodn out) (samples out y).
  Proof.
    intros Es HE HB HN E.
    assert (Hm : exists rnd sat, RND_MAP (rnd_name q) = Some rnd /\ SAT_MAP (sat_name q) = Some sat).
    { unfold fpq_call in E. destruct (RND_MAP _) as [rnd|]; [|discriminate]. destruct (SAT_MAP _) as [sat|]; [|discriminate]. eauto. }
    destruct Hm as (rnd & sat & HR & HS).
    assert (Lk : length (at_k b) = prodn out) by (unfold at_k; rewrite Forall_forall in HB; apply HB, nth_In; lia).
    assert (K : forall (ch : nat -> nat) (v : nat -> qcfg), geo n = map (fun e => mkR [Some (0, e)] (ch e) []) (seq 0 (prodn out)) ->
      (forall e, e < prodn out -> nth_error (data (cfgs q)) (ch e) = Some (v e)) ->
      lout n (NFpq i) [at_k b] = Ok (map (fun e => fval rnd sat (v e) (nth e (at_k b) (qz 0))) (seq 0 (prodn out)))).
    { intros ch v G V. cbn [layer_out]. rewrite G, map_map. apply forall2_rseq.
      assert (I : forall e, In e (seq 0 (prodn out)) -> e < prodn out) by (intros e He; apply in_seq in He; lia).
      revert I. generalize (seq 0 (prodn out)). intros l. induction l as [|e l IH]; intros I; cbn [map]; constructor; [|apply IH; intros; apply I; right; assumption].
      assert (He : e < prodn out) by (apply I; left; reflexivity).
      unfold element, fetches, fetch. cbn [r_src r_ch map nth_error rseq].
      rewrite (nth_error_nth' (at_k b) (qz 0)) by lia. cbn [rbind rseq]. rewrite Es, (V e He). cbn [length Nat.eqb forallb from andb demand].
      unfold gfixed_quantizer. rewrite HR, HS. reflexivity. }
    destruct HE as [(c & C & G)|(bw & Sh & W & Bs & G)].
    - rewrite (fpq_samples_scalar q rnd sat c out b HR HS C HB) in E. assert (y = batch_tensor out (map (map (fval rnd sat c)) b)) by congruence. subst y.
      assert (F : Forall (fun x : list Qc => length x = prodn out) (map (map (fval rnd sat c)) b)).
      { apply Forall_forall. intros x Hx. apply in_map_iff in Hx as [z [<- Hz]]. rewrite map_length. rewrite Forall_forall in HB. auto. }
      rewrite samples_concat by exact F. split; [|split; [rewrite map_length; exact HN|exact F]].
      rewrite (K (fun _ => 0) (fun _ => c) G) by (intros; rewrite C; reflexivity). f_equal. unfold at_k at 2.
      rewrite (nth_indep _ [] (map (fval rnd sat c) [])) by (rewrite map_length; lia). rewrite map_nth. fold (at_k b).
      apply (nth_ext _ _ (qz 0) (qz 0)); [rewrite !map_length, seq_length; lia|]. intros e He. rewrite map_length, seq_length in He.
      rewrite nth_map_seq by exact He. rewrite (nth_indep (map (fval rnd sat c) (at_k b)) (qz 0) (fval rnd sat c (qz 0))) by (rewrite map_length; lia). rewrite map_nth. reflexivity.
    - rewrite (fpq_samples q rnd sat bw out b HR HS Sh Bs HB) in E. assert (y = batch_tensor out (map (fsample rnd sat bw out (data (cfgs q))) b)) by congruence. subst y.
      assert (F : Forall (fun x : list Qc => length x = prodn out) (map (fsample rnd sat bw out (data (cfgs q))) b)).
      { apply Forall_forall. intros x Hx. apply in_map_iff in Hx as [z [<- Hz]]. apply fsample_length. }
      rewrite samples_concat by exact F. split; [|split; [rewrite map_length; exact HN|exact F]].
      rewrite (K (fun e => bidx bw out e) (fun e => nth (bidx bw out e) (data (cfgs q)) (mkCfg 0 0 0)) G).
      + f_equal. unfold at_k at 2. rewrite (nth_indep _ [] (fsample rnd sat bw out (data (cfgs q)) [])) by (rewrite map_length; lia). rewrite map_nth. reflexivity.
      + intros e He. apply nth_error_nth'. rewrite W. apply bidx_lt; assumption.
  Qed.

  (** One layer. *)
  Lemma layer_same n kd ps x bs st y st' : same_layer s geo opaque size n kd ps (snd x) -> Forall2 good ps bs ->
    call_layer pw ln2 x bs st = Ok (y, st') -> lout n kd (map at_k bs) = Ok (at_k y) /\ good n y.
  Proof.
    intros H F E. unfold call_layer in E. destruct (snd x) as [j|j|c out|g|d| |g|q out|]; cbn [same_layer] in H; try contradiction.
    - destruct H as [HK H].
      assert (Z : exists xs, zip_samples bs = Ok xs /\ y = map g xs).
      { destruct (zip_samples bs) as [xs|]; [|discriminate]. cbn [rbind] in E. exists xs. split; [reflexivity|congruence]. }
      destruct Z as (xs & Ez & ->). unfold zip_samples in Ez. destruct bs as [|b0 bs']; [discriminate|].
      destruct (forallb _ _); [|discriminate]. assert (Exs : xs = map (fun j => map (fun b' => nth j b' []) (b0 :: bs')) (seq 0 (length b0))) by congruence. clear Ez.
      set (B := b0 :: bs') in *. assert (L0 : length b0 = N) by (inversion F as [|? ? ? ? G0 _]; subst; apply G0). rewrite L0 in Exs.
      assert (S : forall j, j < N -> Forall2 (fun p x => length x = size p) ps (map (fun b' => nth j b' []) B)).
      { intros j Hj. apply Forall2_map_r. clear -F Hj. induction F as [|p b ps bs [L G] F IH]; constructor; [|exact IH]. rewrite Forall_forall in G. apply G, nth_In. lia. }
      assert (A : at_k (map g xs) = g (map at_k B)).
      { unfold at_k at 1. rewrite (nth_indep _ [] (g [])) by (subst xs; rewrite !map_length, seq_length; lia). rewrite map_nth. f_equal. subst xs.
        rewrite (nth_map_seq (fun j => map (fun b' => nth j b' []) B)) by exact Hk. reflexivity. }
      rewrite A. split; [|split].
      + destruct (H _ (S k Hk)) as [_ Q]. destruct kd; try contradiction; exact Q.
      + subst xs. rewrite !map_length, seq_length. reflexivity.
      + apply Forall_forall. intros z Hz. apply in_map_iff in Hz as [w [<- Hw]]. subst xs. apply in_map_iff in Hw as [j [<- Hj]]. apply in_seq in Hj. apply (H _ (S j ltac:(lia))).
    - destruct H as (i & p & -> & -> & Es & S1 & S2 & HE). inversion F as [|? b ? ? [L G] F']; subst. inversion F'; subst. cbn [one rbind] in E.
      destruct (sized out b) eqn:Z; [|discriminate]. apply sized_spec in Z. cbn [negb] in E. destruct (fpq_call q false (batch_tensor out b)) as [t|] eqn:Ec; [|discriminate]. cbn [rbind] in E.
      assert (y = samples out t) by congruence. subst y.
      destruct (fpq_layer n i q out b t Es HE Z L Ec) as (A & B & C). cbn [map]. split; [exact A|]. split; [exact B|]. rewrite S2. exact C.
    - destruct H as (p & -> & -> & S2). inversion F as [|? b ? ? [L G] F']; subst. inversion F'; subst. cbn [one rbind] in E. assert (y = map (map relu) b) by congruence. subst y.
      cbn [map layer_out]. split; [|split].
      + f_equal. unfold at_k at 2. rewrite (nth_indep _ [] (map relu [])) by (rewrite map_length; lia). rewrite map_nth. reflexivity.
      + rewrite map_length; exact L.
      + apply Forall_forall. intros z Hz. apply in_map_iff in Hz as [w [<- Hw]]. rewrite map_length, S2. rewrite Forall_forall in G. auto.
  Qed.

  Lemma picks_same bs : forall ins xs, Forall (fun r => snd r = 0) ins -> rseq (map (pick (map (fun b => [b]) bs)) ins) = Ok xs ->
    inputs_of (map at_k bs) (map fst ins) = Ok (map at_k xs) /\ Forall2 (fun p x => nth_error bs p = Some x) (map fst ins) xs.
  Proof.
    intros ins. induction ins as [|[p z] ins IH]; intros xs Z E; cbn in E.
    - assert (xs = []) by congruence. subst. split; [reflexivity|constructor].
    - inversion Z as [|? ? Z0 Z']; subst. cbn in Z0. subst z.
      unfold pick at 1 in E. cbn [fst snd] in E. rewrite nth_error_map in E. destruct (nth_error bs p) as [b|] eqn:Eb; cbn in E; [|discriminate].
      destruct (rseq (map _ ins)) as [t|] eqn:Et; [|discriminate]. cbn in E. assert (xs = b :: t) by congruence. subst xs.
      destruct (IH t Z' eq_refl) as [A B]. unfold inputs_of in *. cbn [map fst rseq]. rewrite nth_error_map, Eb. cbn [option_map rbind]. rewrite A. split; [reflexivity|].
      constructor; assumption.
  Qed.

  Lemma go_same nodes : forall rest bs st W st', length rest = length nodes ->
    (forall j k' ins, nth_error nodes j = Some (k', ins) -> exists x kd, k' = Leaf x /\ Forall (fun r => snd r = 0) ins /\
       nth_error rest j = Some (kd, map fst ins) /\ same_layer s geo opaque size (length bs + j) kd (map fst ins) (snd x)) ->
    (forall n b, nth_error bs n = Some b -> good n b) ->
    run_nodes (call_layer pw ln2) nodes (map (fun b => [b]) bs) st = Ok (W, st') ->
    exists bs', W = map (fun b => [b]) bs' /\ NetEval.run s geo feed opaque (fun _ => None) rest (map at_k bs) = Ok (map at_k bs').
  Proof.
    induction nodes as [|[k' ins] nodes IH]; intros rest bs st W st' L D G E; cbn [run_nodes] in E.
    - destruct rest; [|discriminate L]. exists bs. split; [congruence|reflexivity].
    - destruct rest as [|[kd ps] rest]; [discriminate L|].
      destruct (D 0 k' ins eq_refl) as (x & kd' & -> & Z & Er & SL). cbn in Er. injection Er as -> ->. rewrite Nat.add_0_r in SL.
      destruct (rseq _) as [xs|] eqn:Ep; [|discriminate]. cbn [rbind Graph.run] in E.
      destruct (picks_same bs ins xs Z Ep) as [A B].
      destruct (call_layer pw ln2 x xs st) as [[y st1]|] eqn:Ec; [|discriminate]. cbn [rbind fst snd] in E.
      assert (F : Forall2 good (map fst ins) xs) by (clear -B G; induction B as [|p b ps bs' H B IH]; constructor; auto).
      destruct (layer_same (length bs) kd' (map fst ins) x xs st y st1 SL F Ec) as [O GY].
      assert (M : forall b, map (fun b => [b]) bs ++ [[b]] = map (fun b : list (list Qc) => [b]) (bs ++ [b])) by (intros; rewrite map_app; reflexivity). rewrite M in E.
      destruct (IH rest (bs ++ [y]) st1 W st') as (bs' & EW & R).
      + cbn in L. lia.
      + intros j k1 ins1 E1. destruct (D (S j) k1 ins1 E1) as (x1 & kd1 & A1 & A2 & A3 & A4). exists x1, kd1. split; [exact A1|]. split; [exact A2|]. split; [exact A3|].
        rewrite app_length. cbn [length]. replace (length bs + 1 + j) with (length bs + S j) by lia. exact A4.
      + intros n b Eb. rewrite nth_snoc in Eb. destruct (Nat.eqb_spec n (length bs)) as [->|]; [assert (y = b) by congruence; subst; exact GY|apply G; exact Eb].
      + exact E.
      + exists bs'. split; [exact EW|]. cbn [NetEval.run]. rewrite A. cbn [rbind]. rewrite map_length, O. cbn [rbind]. rewrite <- R, map_app. reflexivity.
  Qed.
End Sample.

Lemma run_inputs s geo feed opaque tables nin : forall rest env, (forall i, i < nin -> nth_error rest i = Some (NInput, [])) ->
  NetEval.run s geo feed opaque tables rest env = NetEval.run s geo feed opaque tables (skipn nin rest) (env ++ map feed (seq (length env) nin)).
Proof.
  induction nin as [|nin IH]; intros rest env H; cbn [seq map skipn]; [rewrite app_nil_r; destruct rest; reflexivity|].
  pose proof (H 0 ltac:(lia)) as H0. destruct rest as [|[kd ps] rest]; [discriminate|]. cbn in H0. injection H0 as -> ->.
  cbn [NetEval.run inputs_of map rseq rbind layer_out].
  rewrite (IH rest (env ++ [feed (length env)])); [|intros i Hi; apply (H (S i)); lia]. rewrite <- app_assoc, app_length. cbn [length app]. rewrite Nat.add_1_r. reflexivity.
Qed.

(** The whole network. *)
Lemma describes_run pw ln2 s geo opaque size net m B N k ys st st' : describes s geo opaque size net m -> k < N ->
  (forall i b, nth_error B i = Some b -> good size N i b) -> call_model pw ln2 m B st = Ok (ys, st') ->
  exists out, NetEval.run s geo (sample_feed B k) opaque (fun _ => None) net [] = Ok out /\
    forall o i, nth_error (output_layers m) o = Some i -> exists y, nth_error ys o = Some y /\ nth_error out i = Some (nth k y []).
Proof.
  destruct m as [x|nin nodes outs]; cbn [describes]; [contradiction|]. intros (L & HI & HN & HO) Hk G E.
  unfold call_model in E. rewrite run_sub in E. destruct (Nat.eqb_spec (length B) nin) as [LB|]; [|discriminate].
  destruct (run_nodes _ _ _ _) as [[W st1]|] eqn:Er; [|discriminate]. cbn [rbind fst snd] in E. destruct (rseq _) as [zs|] eqn:Eo; [|discriminate]. cbn [rbind] in E.
  assert (zs = ys) by congruence. subst zs.
  destruct (go_same pw ln2 s geo opaque size (sample_feed B k) N k Hk nodes (skipn nin net) B st W st1) as (bs' & -> & R).
  - rewrite skipn_length. change (List.length net - nin = List.length nodes). rewrite L. lia.
  - intros j k' ins Ej. destruct (HN j k' ins Ej) as (x & kd & A1 & A2 & A3 & A4). exists x, kd. rewrite LB. split; [exact A1|]. split; [exact A2|]. split; [|exact A4].
    rewrite nth_error_skip. exact A3.
  - exact G.
  - exact Er.
  - exists (map (at_k k) bs'). split.
    + rewrite (run_inputs _ _ _ _ _ nin net [] HI). cbn [app length].
      assert (M : map (sample_feed B k) (seq 0 nin) = map (at_k k) B).
      { apply (nth_ext _ _ [] []); [rewrite !map_length, seq_length; lia|]. intros i Hi. rewrite map_length, seq_length in Hi. rewrite nth_map_seq by exact Hi.
        rewrite (nth_indep _ [] (at_k k [])) by (rewrite map_length; lia). rewrite map_nth. reflexivity. }
      rewrite M. exact R.
    + cbn [output_layers]. clear -Eo HO. revert ys Eo. induction outs as [|[p z] outs IH]; intros ys Eo o i Ho; [destruct o; discriminate|].
      inversion HO as [|? ? Z0 Z']; subst. cbn in Z0. subst z. cbn [map rseq] in Eo. unfold pick at 1 in Eo. cbn [fst snd] in Eo. rewrite nth_error_map in Eo.
      destruct (nth_error bs' p) as [b|] eqn:Eb; cbn in Eo; [|discriminate]. destruct (rseq _) as [t|]; [|discriminate]. cbn in Eo. assert (ys = b :: t) by congruence. subst ys.
      destruct o as [|o]; cbn in Ho |- *; [injection Ho as <-; exists b; split; [reflexivity|rewrite nth_error_map, Eb; reflexivity]|].
      apply (IH Z' t eq_refl o i Ho).
Qed.

Lemma batch_good n ds B size : dataset n ds -> batch_of n ds B -> proper_inputs size ds -> forall i b, nth_error B i = Some b ->
  good size (length (hd [] B)) i b /\ Forall (Forall float_value) b.
Proof.
  intros [D1 D2] (js & J0 & J1 & ->) P i b E. rewrite nth_error_map in E. destruct (nth_error ds i) as [d|] eqn:Ed; [|discriminate]. cbn in E. injection E as <-.
  assert (LH : length (hd [] (map (fun d => map (fun j => nth j d []) js) ds)) = length js) by (destruct ds; [congruence|cbn; apply map_length]).
  assert (Ld : length d = n) by (rewrite Forall_forall in D1; apply D1; eapply nth_error_In; exact Ed).
  assert (I : forall x, In x (map (fun j => nth j d []) js) -> In x d).
  { intros x Hx. apply in_map_iff in Hx as [j [<- Hj]]. apply nth_In. rewrite Forall_forall in J1. rewrite Ld. auto. }
  split; [split|].
  - rewrite LH, map_length. reflexivity.
  - apply Forall_forall. intros x Hx. apply (P i d x Ed (I x Hx)).
  - apply Forall_forall. intros x Hx. apply (P i d x Ed (I x Hx)).
Qed.

Lemma honest_feed net n ds B size opaque k : dataset n ds -> batch_of n ds B -> proper_inputs size ds -> honest net (fun _ => []) opaque ->
  honest net (sample_feed B k) opaque.
Proof.
  intros D HB P (_ & H2 & H3). split; [|split; assumption]. intros i. unfold sample_feed.
  destruct (nth_error B i) as [b|] eqn:E.
  - destruct (batch_good n ds B size D HB P i b E) as [_ F]. rewrite (nth_error_nth _ _ [] E).
    destruct (nth_in_or_default k b []) as [I|I]; [rewrite Forall_forall in F; apply F, I|rewrite I; constructor].
  - apply nth_error_None in E. rewrite (nth_overflow B) by exact E. destruct k; constructor.
Qed.

(** ** Kernel layers *)
Lemma taps_dot (w : list Qc) div u x : forall srcs j0, Forall (fun o => match o with Some a => a < length x | None => True end) srcs ->
  exists xs, fetches [x] (map (option_map (fun a => (0, a))) srcs) = Ok xs /\ length xs = length srcs /\
   qsum (map (fun p => (fst p * snd p)%Qc) (combine (map (fun j => nth (j * div + u) w (qz 0)) (seq j0 (length srcs))) xs)) =
   qsum (map (fun ab => nth (fst ab) x (qz 0) * nth (snd ab) w (qz 0))%Qc
     (flat_map (fun js => match snd js with Some a => [(a, fst js * div + u)] | None => [] end) (combine (seq j0 (length srcs)) srcs))).
Proof.
  induction srcs as [|o srcs IH]; intros j0 F; [exists []; split; [reflexivity|split; reflexivity]|].
  inversion F as [|? ? F0 F']; subst. destruct (IH (S j0) F') as (xs & E & L & Q). unfold fetches in *. cbn [map rseq].
  destruct o as [a|]; cbn [option_map fetch nth_error].
  - rewrite (nth_error_nth' x (qz 0)) by exact F0. rewrite E. cbn [rbind]. eexists. split; [reflexivity|]. split; [cbn; congruence|].
    cbn [length seq map combine qsum fold_right flat_map snd fst app]. cbn [fold_right] in Q. unfold qsum in Q. rewrite Q. ring.
  - rewrite E. cbn [rbind]. eexists. split; [reflexivity|]. split; [cbn; congruence|].
    cbn [length seq map combine qsum fold_right flat_map snd fst app]. unfold qsum in Q. rewrite Q. change (qz 0) with 0%Qc. ring.
Qed.

Lemma kernel_same s geo opaque size n p ts w div J bias loc out srcs :
  0 < div -> length w = J * div ->
  ts = map (fun e => kernel_taps div (srcs e) (chan loc out e)) (seq 0 (size n)) ->
  geo n = map (fun e => kernel_recipe (srcs e) (chan loc out e)) (seq 0 (size n)) ->
  (forall e, e < size n -> chan loc out e < div /\ length (srcs e) = J /\ Forall (fun o => match o with Some a => a < size p | None => True end) (srcs e)) ->
  match bias with None => True | Some b => length b = div end ->
  same_layer s geo opaque size n (NKernel w (Z.of_nat div) bias) [p]
    (KKeras (fun x => match bias with None => linop ts w (hd [] x) | Some b => bias_add loc out b (linop ts w (hd [] x)) end)).
Proof.
  intros Hd Lw Et Eg Hs Hb. cbn [same_layer]. split; [exact I|]. intros xs F. inversion F as [|? x ? ? Lx F']; subst. inversion F'; subst. cbn [hd].
  set (ts := map _ _). assert (Lt : length (linop ts w x) = size n) by (unfold linop, ts; rewrite !map_length, seq_length; reflexivity).
  split; [destruct bias; [unfold bias_add; rewrite map_length, combine_length, seq_length, Nat.min_id|]; exact Lt|].
  cbn [layer_out length]. rewrite Eg, map_map. apply forall2_rseq.
  assert (G : match bias with None => linop ts w x | Some b => bias_add loc out b (linop ts w x) end =
    map (fun e => (qsum (map (fun ab => nth (fst ab) x (qz 0) * nth (snd ab) w (qz 0))%Qc (kernel_taps div (srcs e) (chan loc out e))) + match bias with None => qz 0 | Some b => nth (chan loc out e) b (qz 0) end)%Qc) (seq 0 (size n))).
  { apply (nth_ext _ _ (qz 0) (qz 0)); [destruct bias; [unfold bias_add; rewrite map_length, combine_length, seq_length, Nat.min_id|]; rewrite map_length, seq_length; exact Lt|].
    intros e He. assert (He' : e < size n) by (destruct bias; [unfold bias_add in He; rewrite map_length, combine_length, seq_length, Nat.min_id in He|]; lia). clear He.
    rewrite nth_map_seq by exact He'.
    assert (N : nth e (linop ts w x) (qz 0) = qsum (map (fun ab => nth (fst ab) x (qz 0) * nth (snd ab) w (qz 0))%Qc (kernel_taps div (srcs e) (chan loc out e)))).
    { unfold linop, ts. rewrite map_map, nth_map_seq by exact He'. reflexivity. }
    destruct bias as [b|].
    - unfold bias_add. set (f := fun ez : nat * Qc => (snd ez + nth (chan loc out (fst ez)) b (qz 0))%Qc).
      rewrite (nth_indep _ (qz 0) (f (0, qz 0))) by (rewrite map_length, combine_length, seq_length; lia). rewrite map_nth, combine_nth by apply seq_length.
      rewrite seq_nth by lia. unfold f. cbn [fst snd Nat.add]. rewrite N. reflexivity.
    - rewrite N. change (qz 0) with 0%Qc. ring. }
  rewrite G. clear G.
  assert (IN : forall e, In e (seq 0 (size n)) -> e < size n) by (intros e He; apply in_seq in He; lia).
  revert IN. generalize (seq 0 (size n)). intros l. induction l as [|e l IH]; intros IN; cbn [map]; constructor; [|apply IH; intros; apply IN; right; assumption].
  destruct (Hs e (IN e (or_introl eq_refl))) as (C & LJ & P).
  destruct (taps_dot w div (chan loc out e) x (srcs e) 0) as (ys & E & Ly & Q); [rewrite Lx; exact P|].
  unfold element, kernel_recipe. cbn [r_src r_ch]. rewrite E. cbn [rbind Nat.eqb andb].
  assert (FP : forallb (from_pad 0) (map (option_map (fun a => (0, a))) (srcs e)) = true) by (apply forallb_forall; intros o Ho; apply in_map_iff in Ho as [[a|] [<- _]]; reflexivity).
  rewrite FP. cbn [andb]. replace (Z.of_nat (chan loc out e) <? Z.of_nat div)%Z with true by (symmetry; apply Z.ltb_lt; lia). cbn [andb].
  assert (CL : column w (Z.of_nat div) (Z.of_nat (chan loc out e)) = map (fun j => nth (j * div + chan loc out e) w (qz 0)) (seq 0 (length (srcs e)))).
  { unfold column. replace (Z.to_nat (Z.of_nat (length w) / Z.of_nat div)) with (length (srcs e)) by (rewrite Lw, Nat2Z.inj_mul, Z.div_mul, Nat2Z.id by lia; exact LJ).
    apply map_ext. intros j. f_equal. lia. }
  rewrite CL, map_length, seq_length, Ly, Nat.eqb_refl. cbn [demand].
  unfold dotq. rewrite Q. fold (kernel_taps div (srcs e) (chan loc out e)).
  destruct bias as [b|]; [|reflexivity]. rewrite (nth_error_nth' b (qz 0)) by lia. reflexivity.
Qed.

Lemma describes_no_lut s geo opaque size net m : describes s geo opaque size net m -> forall n t ps, nth_error net n <> Some (NLut t, ps).
Proof.
  destruct m as [x|nin nodes outs]; cbn [describes]; [contradiction|]. intros (L & HI & HN & _) n t ps E.
  destruct (Nat.lt_ge_cases n nin) as [H|H]; [rewrite (HI n H) in E; discriminate|].
  assert (B : n - nin < length nodes) by (assert (n < length net) by (apply nth_error_Some; intros C; assert (None = Some (NLut t, ps)) by (rewrite <- E, <- C; reflexivity); discriminate); change (length net) with (List.length net) in *; rewrite L in *; lia).
  destruct (nth_error nodes (n - nin)) as [[k ins]|] eqn:Ej; [|apply nth_error_None in Ej; lia].
  destruct (HN _ _ _ Ej) as (x & kd & _ & _ & Er & S). replace (nin + (n - nin)) with n in * by lia. rewrite E in Er. injection Er as <- _.
  destruct (snd x); cbn [same_layer] in S; try contradiction; [destruct S as [[] _]|destruct S as (i & p & C & _); discriminate|destruct S as (p & C & _); discriminate].
Qed.

(** ** Conversion looks at the results of the transformer only *)
Section Ext.
  Context {L : Type} (uid : L -> nat) (xf xf' : option L -> result (xout (L := L))).
  Hypothesis same_xf : forall x, xf x = xf' x.
  Lemma xf_loop_ext rem : forall l lx, xf_loop uid xf rem l lx = xf_loop uid xf' rem l lx.
  Proof.
    induction rem as [|rem IH]; intros l lx; cbn [xf_loop]; [reflexivity|]. destruct (same uid l lx); [reflexivity|].
    destruct lx as [|y|m]; [rewrite same_xf; destruct (xf' None)|rewrite same_xf; destruct (xf' (Some y))|reflexivity]; cbn [rbind]; auto.
  Qed.
  Lemma xf_chain_ext x : xf_chain uid xf x = xf_chain uid xf' x.
  Proof. unfold xf_chain. rewrite same_xf. destruct (xf' (Some x)); cbn [rbind]; [apply xf_loop_ext|reflexivity]. Qed.
  Lemma mapS_ext {A B S} (f g : A -> S -> result (B * S)) : (forall a s, f a s = g a s) -> forall l s, mapS f l s = mapS g l s.
  Proof. intros H. induction l as [|a l IH]; intros s; cbn [mapS]; [reflexivity|]. rewrite H. destruct (g a s); cbn [rbind]; [rewrite IH; reflexivity|reflexivity]. Qed.
  Lemma conv_ext fuel : forall path k inp s, conv uid xf fuel path k inp s = conv uid xf' fuel path k inp s.
  Proof.
    induction fuel as [|fu IH]; intros path k inp s; [reflexivity|]. destruct k as [x|nin nodes outs].
    - rewrite !conv_leaf, xf_chain_ext. destruct (xf_chain uid xf' x) as [[|y|m]|]; cbn [rbind]; auto.
    - rewrite !conv_sub. f_equal. apply mapS_ext. intros r ss. generalize (S (nin + List.length nodes)) as d. intros d. revert ss. generalize (fst r) as id. clear r.
      induction d as [|d IHd]; intros id ss; [reflexivity|]. rewrite !getf_S. destruct (Convert.lookup (fst ss) id); [reflexivity|]. destruct (Nat.ltb id nin); [reflexivity|]. destruct (nth_error nodes (id - nin)) as [[k' ins]|]; [|reflexivity].
      rewrite (mapS_ext _ _ (fun r s => IHd (fst r) s)). destruct (mapS _ ins ss); cbn [rbind]; [|reflexivity]. rewrite IH. reflexivity.
  Qed.
  Lemma convert_ext fuel m names : convert_model uid xf fuel m names = convert_model uid xf' fuel m names.
  Proof. unfold convert_model. destruct m; [reflexivity|]. rewrite conv_ext. reflexivity. Qed.
End Ext.
