(** Lemmas for C84. *)
From Coq Require Import ZArith QArith Qcanon List Bool String Lia.
From Verif Require Import Base.Num Base.NumFacts Base.Tensor Model.Quantizer Model.Layers Model.Conf Model.BatchNorm Model.Serial Model.Tracing
  Spec.Quant Spec.History Spec.Norm Spec.Adapt Spec.Tracing Proofs.CallP Proofs.QuantizerP Proofs.BatchNormP Proofs.AdaptP.
Import ListNotations.
Local Open Scope nat_scope.

Section T.
  Variable geo_of : cls -> config -> list nat -> geometry.
  Variable exact_of : dict -> bool.
  Variable clip_of : dict -> option (Qc * Qc).
  Variable rsqrt pw : Qc -> Qc.
  Variable ln2 : Qc.
  Variable lg : Qc -> Qc.
  Variable i : qinfo.
  Notation step := (event_step geo_of exact_of clip_of rsqrt pw ln2 lg i).
  Notation run := (events geo_of exact_of clip_of rsqrt pw ln2 lg i).
  Notation call1 := (first_training_call geo_of exact_of clip_of rsqrt pw ln2 lg).
  Notation ops := (adapt_ops geo_of exact_of clip_of rsqrt pw ln2 lg i).

  Lemma call1_ops o xs : a_adapt (o_args o) = true -> a_cls (o_args o) = HDenseBN ->
    call1 o i xs = rbind (ops o xs) (fun o' => Ok (with_flag o' false)).
  Proof.
    intros A C. unfold first_training_call, adapt_ops. rewrite A, C. cbn [delayed andb].
    destruct (adapt_fused_bn _ _ _ _ _ _) as [t|]; cbn [rbind]; [|reflexivity]. destruct (clipped _ t); cbn [rbind]; [|reflexivity].
    unfold with_flag, with_weights. cbn [o_args a_cls a_keras a_kq a_paq a_beta a_pf a_mom a_eps a_center a_scale o_in o_ki o_pi o_w o_min o_max]. rewrite C. reflexivity.
  Qed.
  Lemma call1_done o xs : a_adapt (o_args o) = false -> call1 o i xs = Ok o.
  Proof. intros A. unfold first_training_call. rewrite A. reflexivity. Qed.
  Lemma ops_flag o b xs : ops (with_flag o b) xs = rbind (ops o xs) (fun o' => Ok (with_flag o' b)).
  Proof.
    unfold adapt_ops. change (bn_of geo_of exact_of clip_of (with_flag o b) i) with (bn_of geo_of exact_of clip_of o i). cbn [with_flag o_args a_kq o_w].
    destruct (adapt_fused_bn _ _ _ _ _ _) as [t|]; cbn [rbind]; [|reflexivity]. destruct (clipped _ t); cbn [rbind]; reflexivity.
  Qed.
  Lemma ops_args o xs o' : ops o xs = Ok o' -> o_args o' = o_args o /\ exists f, o_w o' = put (o_w o) "kernel_bw" f.
  Proof.
    unfold adapt_ops. intros E. apply rbind_ok in E as [t [_ E]]. apply rbind_ok in E as [f [_ E]]. assert (o' = with_weights o (put (o_w o) "kernel_bw" f)) by congruence. subst o'.
    split; [reflexivity|]. exists f. reflexivity.
  Qed.

  Lemma events_app h1 h2 s : run (h1 ++ h2) s = rbind (run h1 s) (fun s' => run h2 s').
  Proof. revert s. induction h1 as [|e h1 IH]; intros s; [reflexivity|]. cbn [app events]. destruct (step s e) as [s1|]; cbn [rbind]; [apply IH|reflexivity]. Qed.

  (** What the history says about the state. *)
  Definition quietp (h : list event) : Prop := Forall (fun e' => ~ passes_python e') h.
  Definition traced_first (h : list event) : Prop := exists h1 h2, h = (h1 ++ Trace :: h2)%list /\ quietp h1.
  Definition inv (h : list event) (s : tstate) : Prop :=
    a_cls (o_args (fst s)) = HDenseBN /\
    (quietp h -> a_adapt (o_args (fst s)) = true /\ snd s = []) /\
    (~ quietp h -> a_adapt (o_args (fst s)) = false) /\
    (traced_first h -> exists r, snd s = true :: r /\ Forall (eq false) r) /\
    (~ traced_first h -> Forall (eq false) (snd s)).
  Lemma quiet_dec h : {quietp h} + {~ quietp h}.
  Proof.
    unfold quietp. induction h as [|e h IH]; [left; constructor|]. destruct IH as [IH|IH].
    - destruct e; try (left; constructor; [intros X; exact X|exact IH]); right; intros X; inversion X as [|x y N _]; apply N; exact I.
    - right. intros X. inversion X. contradiction.
  Qed.
  Lemma quiet_snoc h e : quietp (h ++ [e]) <-> quietp h /\ ~ passes_python e.
  Proof. unfold quietp. rewrite Forall_app. split; [intros [A B]; inversion B; auto|intros [A B]; split; [exact A|repeat constructor; exact B]]. Qed.
  Lemma traced_snoc h e : traced_first (h ++ [e]) <-> traced_first h \/ (quietp h /\ e = Trace).
  Proof.
    split.
    - intros (h1 & h2 & E & Q). destruct h2 as [|x h2] using rev_ind.
      + right. apply app_inj_tail in E as [-> ->]. auto.
      + clear IHh2. left. replace (h1 ++ Trace :: h2 ++ [x])%list with ((h1 ++ Trace :: h2) ++ [x])%list in E by (rewrite <- app_assoc; reflexivity).
        apply app_inj_tail in E as [-> _]. exists h1, h2. auto.
    - intros [(h1 & h2 & -> & Q)|[Q ->]]; [exists h1, (h2 ++ [e])%list|exists h, []]; (split; [|exact Q]); [rewrite <- app_assoc|]; reflexivity.
  Qed.
  Lemma traced_not_quiet h : traced_first h -> ~ quietp h.
  Proof. intros (h1 & h2 & -> & _) Q. unfold quietp in Q. apply Forall_app in Q as [_ Q]. inversion Q as [|x y N _]. apply N. exact I. Qed.

  Lemma inv_step h s e s' : inv h s -> step s e = Ok s' -> inv (h ++ [e]) s'.
  Proof.
    destruct s as [o gs]. intros (C & Q & NQ & T & NT) E. cbn [fst snd] in *.
    assert (K : forall o' , o_args o' = o_args o -> ~ passes_python e -> s' = (o', gs) -> inv (h ++ [e]) s').
    { intros o' A NP ->. unfold inv. cbn [fst snd]. rewrite A, quiet_snoc, traced_snoc. split; [exact C|]. split; [intros [X _]; exact (Q X)|]. split; [intros X; apply NQ; tauto|].
      assert (NE : e <> Trace) by (intros ->; apply NP; exact I). split; [intros [X|[_ X]]; [exact (T X)|contradiction]|intros X; apply NT; tauto]. }
    destruct e as [|n xs|xs|f]; cbn [event_step] in E.
    - rewrite C in E. cbn [delayed] in E. rewrite andb_true_r in E. assert (s' = (if a_adapt (o_args o) then with_flag o false else o, gs ++ [a_adapt (o_args o)])%list) by congruence. subst s'. clear E K.
      unfold inv. cbn [fst snd]. rewrite quiet_snoc, traced_snoc. destruct (quiet_dec h) as [QH|QH].
      + destruct (Q QH) as [A ->]. rewrite A. cbn [with_flag o_args a_cls a_adapt app]. split; [exact C|]. split; [intros [_ X]; destruct X; exact I|]. split; [reflexivity|].
        split; [intros _; exists []; auto|]. intros X. exfalso. apply X. right. auto.
      + pose proof (NQ QH) as A. rewrite A. split; [exact C|]. split; [intros [X _]; contradiction|]. split; [intros _; exact A|]. split.
        * intros [X|[X _]]; [|contradiction]. destruct (T X) as (r & -> & F). exists (r ++ [false])%list. split; [reflexivity|]. apply Forall_app. split; [exact F|repeat constructor].
        * intros X. apply Forall_app. split; [apply NT; tauto|repeat constructor].
    - destruct (nth_error gs n) as [[|]|]; [| |discriminate].
      + apply rbind_ok in E as [o' [O E]]. apply (K o'); [apply (ops_args _ _ _ O)|intros X; exact X|congruence].
      + apply (K o); [reflexivity|intros X; exact X|congruence].
    - apply rbind_ok in E as [o' [O E]]. assert (s' = (o', gs)) by congruence. subst s'. clear K E.
      unfold inv. cbn [fst snd]. rewrite quiet_snoc, traced_snoc. destruct (quiet_dec h) as [QH|QH].
      + destruct (Q QH) as [A ->]. rewrite call1_ops in O by assumption. apply rbind_ok in O as [o1 [O1 O]]. assert (o' = with_flag o1 false) by congruence. subst o'. cbn [with_flag o_args a_cls a_adapt].
        rewrite (proj1 (ops_args _ _ _ O1)). split; [exact C|]. split; [intros [_ X]; destruct X; exact I|]. split; [reflexivity|].
        split; [intros [X|[_ X]]; [destruct (traced_not_quiet _ X QH)|discriminate]|constructor].
      + pose proof (NQ QH) as A. rewrite call1_done in O by exact A. assert (o' = o) by congruence. subst o'.
        split; [exact C|]. split; [intros [X _]; contradiction|]. split; [intros _; exact A|]. split; [intros [X|[_ X]]; [exact (T X)|discriminate]|intros X; apply NT; tauto].
    - apply (K (with_weights o (map (fun e => (fst e, f (fst e) (snd e))) (o_w o)))); [reflexivity|intros X; exact X|congruence].
  Qed.
  Lemma inv_run h o s : a_adapt (o_args o) = true -> a_cls (o_args o) = HDenseBN -> run h (o, []) = Ok s -> inv h s.
  Proof.
    intros A C. revert s. induction h as [|e h IH] using rev_ind; intros s E.
    - assert (s = (o, [])) by (cbn in E; congruence). subst s. unfold inv. cbn [fst snd]. split; [exact C|]. split; [auto|]. split; [intros X; destruct X; constructor|].
      split; [intros (h1 & h2 & X & _); destruct h1; discriminate|constructor].
    - rewrite events_app in E. apply rbind_ok in E as [s1 [E1 E2]]. cbn [events] in E2. apply rbind_ok in E2 as [s2 [E2 E3]]. assert (s2 = s) by congruence. subst s2.
      eapply inv_step; [apply IH, E1|exact E2].
  Qed.

  Lemma adapts_spec o h s e s' : a_adapt (o_args o) = true -> a_cls (o_args o) = HDenseBN ->
    run h (o, []) = Ok s -> step s e = Ok s' ->
    (adapts h e -> exists xs o1, inputs e = Some xs /\ call1 (untrained (fst s)) i xs = Ok o1 /\ o_w (fst s') = o_w o1) /\
    (~ adapts h e -> ~ updates e -> o_w (fst s') = o_w (fst s)).
  Proof.
    intros A C R E. pose proof (inv_run h o s A C R) as (C' & Q & NQ & T & NT). destruct s as [o0 gs]. cbn [fst snd] in *.
    assert (UC : forall xs, call1 (untrained o0) i xs = rbind (ops o0 xs) (fun o' => Ok (with_flag o' false))).
    { intros xs. unfold untrained. rewrite call1_ops by (try reflexivity; exact C'). rewrite ops_flag. destruct (ops o0 xs); reflexivity. }
    destruct e as [|n xs|xs|f]; cbn [event_step adapts inputs updates] in *.
    - split; [contradiction|]. intros _ _. assert (s' = (if a_adapt (o_args o0) && delayed (a_cls (o_args o0)) then with_flag o0 false else o0, gs ++ [a_adapt (o_args o0) && delayed (a_cls (o_args o0))])%bool%list) by congruence. subst s'. cbn [fst].
      destruct (a_adapt (o_args o0) && delayed (a_cls (o_args o0)))%bool; reflexivity.
    - destruct (nth_error gs n) as [b|] eqn:EN; [|discriminate]. split.
      + intros [-> TF]. destruct (T TF) as (r & -> & _). cbn in EN. assert (b = true) by congruence. subst b. apply rbind_ok in E as [o' [O E]]. assert (s' = (o', true :: r)) by congruence. subst s'.
        exists xs, (with_flag o' false). split; [reflexivity|]. rewrite UC, O. auto.
      + intros NA _. destruct b; [|assert (s' = (o0, gs)) by congruence; subst s'; reflexivity]. exfalso. apply NA. assert (TD : traced_first h \/ ~ traced_first h).
        { clear. induction h as [|e h IH] using rev_ind; [right; intros (h1 & h2 & X & _); destruct h1; discriminate|]. destruct IH as [IH|IH]; [left; apply traced_snoc; auto|].
          destruct (quiet_dec h) as [QH|QH]; [|right; rewrite traced_snoc; tauto]. destruct e; try (right; rewrite traced_snoc; intros [X|[_ X]]; [contradiction|discriminate]). left. apply traced_snoc. auto. }
        destruct TD as [TD|TD].
        * split; [|exact TD]. destruct (T TD) as (r & -> & F). destruct n as [|n]; [reflexivity|]. cbn in EN. apply nth_error_In in EN. rewrite Forall_forall in F. specialize (F _ EN). discriminate.
        * specialize (NT TD). apply nth_error_In in EN. rewrite Forall_forall in NT. specialize (NT _ EN). discriminate.
    - apply rbind_ok in E as [o' [O E]]. assert (s' = (o', gs)) by congruence. subst s'. cbn [fst]. split.
      + intros QH. destruct (Q QH) as [AF _]. exists xs, o'. split; [reflexivity|]. rewrite UC, <- O, call1_ops by assumption. destruct (ops o0 xs); auto.
      + intros QH _. rewrite call1_done in O by (apply NQ; exact QH). congruence.
    - split; [contradiction|]. intros _ X. destruct X. exact I.
  Qed.

  (** Running the graph again and again. *)
  Lemma adapted_shift k n g sc f e l : adapted lg k n g sc f e -> adapted lg k n g sc (qz 0) l -> e = moved f 1 l.
  Proof.
    intros A L. unfold adapted, least in *. destruct L as [[NL ->]|(v & (c & w & G & NZ & ->) & -> & ML)].
    - destruct A as [[_ ->]|(v & (c & w & G & NZ & ->) & _)]; [reflexivity|]. exfalso. apply (NL (qz 0 - lg (qabs (w * sc c)))%Qc). exists c, w. auto.
    - cbn [moved]. destruct A as [[NA _]|(u & (c' & w' & G' & NZ' & ->) & -> & MA)]; [exfalso; apply (NA (f - lg (qabs (w * sc c)))%Qc); exists c, w; auto|].
      f_equal. assert (H1 := MA (f - lg (qabs (w * sc c)))%Qc (ex_intro _ c (ex_intro _ w (conj G (conj NZ eq_refl))))).
      assert (H2 := ML (qz 0 - lg (qabs (w' * sc c')))%Qc (ex_intro _ c' (ex_intro _ w' (conj G' (conj NZ' eq_refl))))).
      change (Z.of_nat 1) with 1%Z. generalize dependent (lg (qabs (w * sc c))). generalize dependent (lg (qabs (w' * sc c'))). intros. qlra.
  Qed.
  Lemma adapted_zero k n g sc f e : adapted lg k n g sc f e -> exists l, adapted lg k n g sc (qz 0) l.
  Proof.
    intros A. unfold adapted, least in *. destruct A as [[NA ->]|(v & (c & w & G & NZ & ->) & -> & M)].
    - exists PosInf. left. split; [|reflexivity]. intros u (c & w & G & NZ & _). apply (NA (f - lg (qabs (w * sc c)))%Qc). exists c, w. auto.
    - exists (Fin (qz 0 - lg (qabs (w * sc c)))%Qc). right. eexists. split; [exists c, w; auto|]. split; [reflexivity|].
      intros u (c' & w' & G' & NZ' & ->). assert (H := M (f - lg (qabs (w' * sc c')))%Qc (ex_intro _ c' (ex_intro _ w' (conj G' (conj NZ' eq_refl))))).
      generalize dependent (lg (qabs (w * sc c))). generalize dependent (lg (qabs (w' * sc c'))). intros. qlra.
  Qed.
  Lemma cut_range lo hi e w : (lo <= hi)%Qc -> cut lo hi e w -> (lo <= w)%Qc /\ (w <= hi)%Qc.
  Proof.
    intros L. destruct e as [|f|]; cbn [cut]; [intros ->; split; qlra| |intros ->; split; qlra].
    intros (A & B & C). destruct (Qclt_le_dec f lo) as [H|H]; [rewrite A by qlra; split; qlra|]. destruct (Qclt_le_dec hi f) as [H'|H']; [rewrite B by qlra; split; qlra|].
    rewrite (C H H'). split; assumption.
  Qed.
  Lemma cut_again lo hi b k l w w' : (lo <= hi)%Qc -> (lo <= b)%Qc -> (b <= hi)%Qc ->
    (k = 0 /\ w = b) \/ cut lo hi (moved b k l) w -> cut lo hi (moved w 1 l) w' -> cut lo hi (moved b (S k) l) w'.
  Proof.
    intros L B1 B2 H H'. destruct l as [|v|]; cbn [moved cut] in *; [exact H'| |exact H'].
    assert (N : qz (Z.of_nat (S k)) = (qz (Z.of_nat k) + qz 1)%Qc) by (rewrite <- qz_add; f_equal; lia). rewrite N. clear N.
    change (qz (Z.of_nat 1)) with 1%Qc in H'. change (qz 1) with 1%Qc.
    assert (HK : (0 <= qz (Z.of_nat k))%Qc) by (change 0%Qc with (qz 0); apply (proj2 (qz_le _ _)); lia).
    assert (P : cut lo hi (Fin (b + qz (Z.of_nat k) * v)%Qc) w).
    { destruct H as [[-> ->]|H]; [|exact H]. cbn [cut]. change (qz (Z.of_nat 0)) with 0%Qc. replace (b + 0 * v)%Qc with b by ring. repeat split; intros; qlra. }
    clear H. cbn [cut] in P. revert P H'. set (K := qz (Z.of_nat k)) in *. set (kv := (K * v)%Qc). replace ((K + 1) * v)%Qc with (kv + v)%Qc by (unfold kv; ring). replace (1 * v)%Qc with v by ring.
    assert (KV : ((0 <= v)%Qc -> (0 <= kv)%Qc) /\ ((v <= 0)%Qc -> (kv <= 0)%Qc)).
    { unfold kv. split; intros Hv; qnra. }
    destruct KV as [KV1 KV2]. clearbody kv K. intros (P1 & P2 & P3) (R1 & R2 & R3).
    destruct (Qclt_le_dec v 0) as [V|V]; [specialize (KV2 ltac:(qlra))|specialize (KV1 V)].
    - destruct (Qclt_le_dec (b + kv) lo) as [X|X].
      + specialize (P1 ltac:(qlra)). subst w. specialize (R1 ltac:(qlra)). repeat split; intros; qlra.
      + specialize (P3 ltac:(qlra) ltac:(qlra)). subst w. repeat split; intros Y; [apply R1|apply R2|intros Y'; rewrite R3]; qlra.
    - destruct (Qclt_le_dec hi (b + kv)) as [X|X].
      + specialize (P2 ltac:(qlra)). subst w. specialize (R2 ltac:(qlra)). repeat split; intros; qlra.
      + specialize (P3 ltac:(qlra) ltac:(qlra)). subst w. repeat split; intros Y; [apply R1|apply R2|intros Y'; rewrite R3]; qlra.
  Qed.

  (** o' is o up to the bitwidths of the kernel. *)
  Definition alike (m : nat) (rest : list nat) (o o' : obj) : Prop :=
    o_args o' = o_args o /\ o_in o' = o_in o /\ o_ki o' = o_ki o /\ o_pi o' = o_pi o /\ o_min o' = o_min o /\ o_max o' = o_max o /\
    (forall n, n <> "kernel_bw"%string -> weight o' n = weight o n) /\ reg_ok m rest (weight o' "kernel_bw") /\ (exists w, In ("kernel_bw"%string, w) (o_w o')).
  Lemma alike_full m rest o o' : reg_ok m rest (weight o "kernel_bw") -> alike m rest o o' ->
    full_width (bn_of geo_of exact_of clip_of o' i) = full_width (bn_of geo_of exact_of clip_of o i).
  Proof.
    intros [S1 L1] (A1 & A2 & A3 & A4 & A5 & A6 & W & [S2 L2] & _). unfold bn_of, full_width, paq_of, kq_of, bias_of, geo. cbv zeta. cbn [b_kq b_ts b_kernel b_bias b_bias_loc b_center b_scale b_gamma b_beta b_mean b_var b_eps b_momentum b_paq b_relu b_loc b_out q_fbw q_min q_max q_skip q_strategy q_exact q_clip].
    rewrite A1, A2, A4, A5, A6, S1, S2.
    rewrite (W "kernel"%string), (W "bias"%string), (W "bn_gamma"%string), (W "bn_beta"%string), (W "moving_mean"%string), (W "moving_variance"%string), (W "activation_bw"%string) by discriminate.
    replace (map (fun _ => qz 32) (data (weight o' "kernel_bw"))) with (map (fun _ => qz 32) (data (weight o "kernel_bw"))); [reflexivity|].
    assert (X : forall (l l' : list Qc), List.length l = List.length l' -> map (fun _ => qz 32) l = map (fun _ => qz 32) l').
    { induction l as [|x l IH]; intros [|y l'] E; cbn in *; try discriminate; [reflexivity|]. f_equal. apply IH. lia. }
    apply X. congruence.
  Qed.
  Lemma ops_alike m pre rest lo hi o o' o'' xs sc :
    prefix_skip (i_skip i) m -> List.length pre = m -> reg_ok m rest (weight o "kernel_bw") ->
    shape (weight o "kernel") = (pre ++ rest)%list -> List.length (data (weight o "kernel")) = prodn (shape (weight o "kernel")) ->
    0 < last (shape (weight o "kernel")) 1 -> clip_of (a_kq (o_args o)) = Some (lo, hi) -> (lo <= hi)%Qc ->
    factors geo_of exact_of clip_of rsqrt pw ln2 o i xs sc -> alike m rest o o' -> ops o' xs = Ok o'' ->
    alike m rest o o'' /\ forall g, g < prodn rest -> exists e,
      adapted lg (weight o "kernel") (prodn rest) g sc (nth g (data (weight o' "kernel_bw")) (qz 0)) e /\ cut lo hi e (nth g (data (weight o'' "kernel_bw")) (qz 0)).
  Proof.
    intros PS LP RO SK LK LL CL LH FA AL E. pose proof AL as (A1 & A2 & A3 & A4 & A5 & A6 & W & RO' & HI).
    pose proof E as E0. unfold adapt_ops in E0. apply rbind_ok in E0 as [t [T E0]]. apply rbind_ok in E0 as [f [F E0]]. assert (O2 : o'' = with_weights o' (put (o_w o') "kernel_bw" f)) by congruence. clear E0.
    assert (TR : adapt_bw_bits lg (i_skip i) (weight o' "kernel_bw") (scale_kernel (weight o "kernel") sc) = Ok t).
    { destruct (a_scale (o_args o)) eqn:ES; unfold factors in FA; rewrite ES in FA.
      - destruct FA as (zs & l' & Z & v & V & ->). assert (SB : b_scale (bn_of geo_of exact_of clip_of o' i) = true) by (cbn; rewrite A1; exact ES).
        destruct (adapt_fused_form _ _ _ _ _ _ _ SB T) as [[zs' l0] [Z' U]]. rewrite (alike_full m rest o o' RO AL) in Z'. assert (zs' = zs) by congruence. subst zs'. cbn [fst] in U. rewrite <- U.
        change (q_skip (b_kq (bn_of geo_of exact_of clip_of o' i))) with (i_skip i). change (q_fbw (b_kq (bn_of geo_of exact_of clip_of o' i))) with (weight o' "kernel_bw"). f_equal.
        change (b_kernel (bn_of geo_of exact_of clip_of o' i)) with (weight o' "kernel"). rewrite (W "kernel"%string) by discriminate. apply scale_kernel_ext; [exact LL|]. intros c Hc. destruct (V c Hc) as [N VV].
        change (b_loc (bn_of geo_of exact_of clip_of o' i)) with (g_loc (geo geo_of o')). change (b_out (bn_of geo_of exact_of clip_of o' i)) with (g_out (geo geo_of o')).
        replace (geo geo_of o') with (geo geo_of o) by (unfold geo; rewrite A1, A2; reflexivity).
        rewrite chan_vals_spec, (var_list_spec _ _ N VV). unfold gamma_of. rewrite SB. cbn [bn_of b_gamma b_eps]. rewrite (W "bn_gamma"%string) by discriminate. rewrite A1. reflexivity.
      - subst sc. unfold adapt_fused_bn in T. assert (SB : b_scale (bn_of geo_of exact_of clip_of o' i) = false) by (cbn; rewrite A1; exact ES). rewrite SB in T. cbn [negb] in T.
        rewrite <- T. change (q_skip (b_kq (bn_of geo_of exact_of clip_of o' i))) with (i_skip i). change (q_fbw (b_kq (bn_of geo_of exact_of clip_of o' i))) with (weight o' "kernel_bw"). f_equal.
        change (b_kernel (bn_of geo_of exact_of clip_of o' i)) with (weight o' "kernel"). rewrite (W "kernel"%string) by discriminate. apply scale_one. }
    destruct (adapt_scaled lg (weight o "kernel") sc (i_skip i) m pre rest (weight o' "kernel_bw") PS LP RO' SK LK) as [nf [NA [[SH B] C]]]. assert (nf = t) by congruence. subst nf.
    rewrite A1, CL in F. cbn [clipped] in F. assert (f = tmap (fun e => clip_ext e lo hi) t) by congruence. subst f.
    assert (WK : forall n, weight o'' n = if String.eqb n "kernel_bw" then tmap (fun e => clip_ext e lo hi) t else weight o' n).
    { intros n. subst o''. unfold weight at 1. cbn [with_weights o_w]. rewrite (find_put _ _ _ _ HI). reflexivity. }
    split.
    - subst o''. unfold alike. cbn [with_weights o_args o_in o_ki o_pi o_min o_max o_w]. do 6 (split; [assumption|]). split.
      + intros n N. rewrite WK. destruct (String.eqb_spec n "kernel_bw"); [contradiction|]. apply W, N.
      + split.
        * rewrite WK. cbn [String.eqb Ascii.eqb Bool.eqb]. unfold tmap, reg_ok. cbn [shape data]. rewrite map_length. split; assumption.
        * destruct HI as [w HI]. exists (tmap (fun e => clip_ext e lo hi) t). unfold put. apply in_map_iff. exists ("kernel_bw"%string, w). split; [reflexivity|exact HI].
    - intros g Hg. exists (nth g (data t) PosInf). split; [apply C, Hg|]. rewrite WK. cbn [String.eqb Ascii.eqb Bool.eqb]. unfold tmap. cbn [data].
      rewrite (nth_indep _ (qz 0) (clip_ext PosInf lo hi)) by (rewrite map_length, B; exact Hg). rewrite (map_nth (fun e => clip_ext e lo hi)). apply cut_clip, LH.
  Qed.

  Lemma drift m pre rest lo hi o xs sc :
    a_adapt (o_args o) = true -> a_cls (o_args o) = HDenseBN -> (exists w, In ("kernel_bw"%string, w) (o_w o)) ->
    prefix_skip (i_skip i) m -> List.length pre = m -> reg_ok m rest (weight o "kernel_bw") ->
    shape (weight o "kernel") = (pre ++ rest)%list -> List.length (data (weight o "kernel")) = prodn (shape (weight o "kernel")) ->
    0 < last (shape (weight o "kernel")) 1 -> clip_of (a_kq (o_args o)) = Some (lo, hi) -> (lo <= hi)%Qc ->
    (forall g, g < prodn rest -> (lo <= nth g (data (weight o "kernel_bw")) (qz 0))%Qc /\ (nth g (data (weight o "kernel_bw")) (qz 0) <= hi)%Qc) ->
    factors geo_of exact_of clip_of rsqrt pw ln2 o i xs sc ->
    forall k s, run (Trace :: repeat (Run 0 xs) (S k)) (o, []) = Ok s ->
    forall g, g < prodn rest -> forall l, adapted lg (weight o "kernel") (prodn rest) g sc (qz 0) l ->
      cut lo hi (moved (nth g (data (weight o "kernel_bw")) (qz 0)) (S k) l) (nth g (data (weight (fst s) "kernel_bw")) (qz 0)).
  Proof.
    intros HA HC HI PS LP RO SK LK LL CL LH BR FA k.
    set (o0 := with_flag o false). assert (I0 : alike m rest o0 o0) by (unfold alike; do 6 (split; [reflexivity|]); split; [reflexivity|]; split; [exact RO|exact HI]).
    assert (X : forall k s, run (Trace :: repeat (Run 0 xs) k) (o, []) = Ok s -> snd s = [true] /\ alike m rest o0 (fst s) /\
      forall g, g < prodn rest -> forall l, adapted lg (weight o "kernel") (prodn rest) g sc (qz 0) l ->
        (k = 0 /\ nth g (data (weight (fst s) "kernel_bw")) (qz 0) = nth g (data (weight o "kernel_bw")) (qz 0)) \/
        cut lo hi (moved (nth g (data (weight o "kernel_bw")) (qz 0)) k l) (nth g (data (weight (fst s) "kernel_bw")) (qz 0))).
    { clear k. induction k as [|k IH]; intros s E.
      - cbn [repeat events event_step] in E. rewrite HA, HC in E. cbn [delayed andb rbind app] in E. assert (s = (o0, [true])) by (unfold o0; congruence). subst s. cbn [fst snd]. split; [reflexivity|]. split; [exact I0|]. intros. left. split; reflexivity.
      - assert (R : (Trace :: repeat (Run 0 xs) (S k) = (Trace :: repeat (Run 0 xs) k) ++ [Run 0 xs])%list). { cbn [app]. f_equal. clear. induction k; [reflexivity|]. cbn [repeat app]. f_equal. exact IHk. }
        rewrite R, events_app in E. apply rbind_ok in E as [[o1 gs] [E1 E2]]. destruct (IH _ E1) as (G & AL & H). cbn [fst snd] in *. subst gs. cbn [events] in E2.
        apply rbind_ok in E2 as [s2 [E2 E3]]. assert (s2 = s) by congruence. subst s2. cbn [event_step nth_error] in E2. apply rbind_ok in E2 as [o2 [O2 E2]]. assert (s = (o2, [true])) by congruence. subst s. cbn [fst snd].
        split; [reflexivity|].
        destruct (ops_alike m pre rest lo hi o0 o1 o2 xs sc PS LP RO SK LK LL CL LH FA AL O2) as [AL2 W2]. split; [exact AL2|].
        intros g Hg l Hl. right. destruct (W2 g Hg) as (e & AE & CE). rewrite (adapted_shift _ _ _ _ _ _ _ AE Hl) in CE.
        destruct (BR g Hg) as [B1 B2]. eapply cut_again; [exact LH|exact B1|exact B2|exact (H g Hg l Hl)|exact CE]. }
    intros s E g Hg l Hl. destruct (X _ _ E) as (_ & _ & H). destruct (H g Hg l Hl) as [[H0 _]|H0]; [discriminate|exact H0].
  Qed.
End T.
