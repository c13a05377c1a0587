(** Range recording followed by bit derivation, over whole histories. *)
From Coq Require Import ZArith QArith Qcanon List Bool Lia Arith.
From Verif Require Import Base.Num Base.NumFacts Base.Tensor Model.FixedPoint Model.Quantizer
  Spec.Fixed Spec.Quant Spec.History Proofs.TensorP Proofs.QuantizerP Proofs.RecordP Proofs.BitsP.
Import ListNotations.
Local Open Scope nat_scope.

Lemma least_le P e v : least P e -> P v -> exists w, e = Fin w /\ P w /\ (w <= v)%Qc.
Proof. intros [[N _]|[w [Pw [E L]]]] H; [exfalso; apply (N v H)|]. exists w. auto. Qed.
Lemma greatest_ge P e v : greatest P e -> P v -> exists w, e = Fin w /\ P w /\ (v <= w)%Qc.
Proof. intros [[N _]|[w [Pw [E L]]]] H; [exfalso; apply (N v H)|]. exists w. auto. Qed.

Lemma combine_nth_error {A B} (a : list A) (b : list B) n x y :
  nth_error a n = Some x -> nth_error b n = Some y -> nth_error (combine a b) n = Some (x, y).
Proof. revert b n; induction a; intros [|] [|n]; cbn; intros; try discriminate; [congruence|auto]. Qed.
Lemma In_combine_nth {A B} (a : list A) (b : list B) x y : In (x, y) (combine a b) ->
  exists n, nth_error a n = Some x /\ nth_error b n = Some y.
Proof.
  revert b; induction a as [|u a IH]; intros [|v b]; cbn; intros H; try contradiction.
  destruct H as [H|H]; [injection H as -> ->; exists 0; auto|]. destruct (IH _ H) as [n Hn]. exists (S n). auto.
Qed.

(** Every group of a non-empty output has a value. *)
Lemma group_value m pre rest (y : tensor Qc) g : length pre = m -> shape y = pre ++ rest ->
  length (data y) = prodn (shape y) -> prodn pre <> 0 -> g < prodn rest -> exists v, in_group (prodn rest) g (data y) v.
Proof.
  intros Hm Hs W NE Hg. destruct (nth_error (data y) g) as [v|] eqn:E; [exists v; exists 0; assumption|].
  apply nth_error_None in E. rewrite W, Hs, prodn_app in E. exfalso. nia.
Qed.

Lemma exact_ok m rest q log pos : hinv m rest (q, log) ->
  (exists y, In y log /\ data y <> []) -> exists b, get_bits_exact q pos = Ok b /\ length b = prodn rest.
Proof.
  intros [H1 [[F1 F2] [[M1 M2] [[X1 X2] [L [G Ly]]]]]] [y [Hy NE]].
  assert (V : forall g, g < prodn rest -> exists v, logged (prodn rest) g log v).
  { intros g Hg. destruct (Ly y Hy) as [pre [P1 [P2 P3]]].
    destruct (group_value m pre rest y g P1 P2 P3) as [v Hv]; [|assumption|exists v, y; auto].
    intros Z. apply NE. apply length_zero_iff_nil. rewrite P3, P2, prodn_app, Z. reflexivity. }
  unfold get_bits_exact. cbv zeta.
  replace (forallb _ _) with true.
  { cbn [negb]. eexists; split; [reflexivity|]. rewrite map_length, !combine_length, M2, X2, F2. lia. }
  symmetry. apply forallb_forall. intros [mn mx] Hin. cbn [fst snd].
  apply In_combine_nth in Hin. destruct Hin as [g [E1 E2]].
  assert (Hg : g < prodn rest) by (rewrite <- M2; apply nth_error_Some; congruence).
  destruct (V g Hg) as [v Hv]. specialize (L g Hg). specialize (G g Hg).
  rewrite (nth_error_nth _ _ _ E1) in L. rewrite (nth_error_nth _ _ _ E2) in G.
  destruct (least_le _ _ _ L Hv) as [a [-> [_ A]]]. destruct (greatest_ge _ _ _ G Hv) as [b [-> [_ B]]].
  cbn [range_ok]. apply qleb_true. eapply Qcle_trans; eassumption.
Qed.

Lemma exact_raise q pos : data (q_fbw q) <> [] -> get_bits_exact (minmax_reg_reset q) pos = Raise.
Proof.
  intros H. unfold get_bits_exact, minmax_reg_reset. cbn [with_minmax q_min q_max q_fbw tmap data].
  destruct (data (q_fbw q)) as [|f l]; [contradiction|]. reflexivity.
Qed.

(** ** Inference histories: every logged value is on the grid of the final bitwidths. *)

Lemma clip_fbw_idem q : (match q_clip q with Some (lo, hi) => (lo <= hi)%Qc | None => True end) ->
  clip_fbw (clip_fbw q) = clip_fbw q.
Proof.
  unfold clip_fbw. intros H. destruct (q_clip q) as [[lo hi]|] eqn:E; [|rewrite E; reflexivity].
  destruct q as [a1 a2 a3 a4 a5 a6 a7]. unfold with_fbw. cbn in *. subst a7. f_equal. unfold tmap; cbn [data shape]. f_equal.
  rewrite map_map. apply map_ext. intros a. destruct (clip_bounds a lo hi H). apply clip_id; assumption.
Qed.

Definition ginv (rest : list nat) (F : tensor Qc) (st : hgq * list (tensor Qc)) : Prop :=
  let '(q, log) := st in
  q_fbw (clip_fbw q) = F /\ (log <> [] -> q_fbw q = F) /\
  (match q_clip q with Some (lo, hi) => (lo <= hi)%Qc | None => True end) /\
  forall g v, g < prodn rest -> logged (prodn rest) g log v -> on_grid (qround_even (nth g (data F) (qz 0))) v.

Lemma with_minmax_clip q mn mx : clip_fbw (with_minmax q mn mx) = with_minmax (clip_fbw q) mn mx.
Proof. destruct q as [a1 a2 a3 a4 a5 a6 [[lo hi]|]]; reflexivity. Qed.

Lemma ginv_step pw ln2 m rest F st op st' : hinv m rest st -> ok_op m rest op -> inference_op op ->
  ginv rest F st -> hstep pw ln2 st op = Ok st' -> ginv rest F st'.
Proof.
  destruct st as [q log]. intros I Hop Hi [J1 [J2 [J3 J4]]] E.
  destruct op as [|f|x training record noise]; cbn [inference_op] in Hi; [|contradiction|subst training].
  - cbn [hstep] in E. injection E as <-. unfold ginv, minmax_reg_reset. rewrite with_minmax_clip. cbn [with_minmax q_fbw q_clip].
    split; [assumption|]. split; [intros C; contradiction|]. split; [assumption|]. intros g v _ [y [[] _]].
  - cbn [hstep] in E. unfold call in E.
    destruct (forward pw ln2 (clip_fbw q) x false record noise) as [[y q']|] eqn:Ef; cbn [rbind fst snd] in E; [|discriminate].
    injection E as <-. apply forward_elems in Ef. destruct Ef as [B [W [El [Fr Tr]]]].
    apply hinv_clip in I. destruct I as [H1 [[S2 L2] _]].
    destruct Hop as [pre [Hm [Hx Wx]]].
    assert (Sy : shape y = pre ++ rest) by (rewrite Hx, S2, <- Hm, broadcast_prefix in B; congruence).
    assert (Q : q_fbw q' = F /\ q_fbw (clip_fbw q') = F /\ q_clip q' = q_clip q).
    { assert (Cq : q_clip (clip_fbw q) = q_clip q) by (destruct q as [a1 a2 a3 a4 a5 a6 [[lo hi]|]]; reflexivity).
      assert (J3' : match q_clip (clip_fbw q) with Some (lo, hi) => (lo <= hi)%Qc | None => True end) by (rewrite Cq; exact J3).
      destruct record.
      - destruct (Tr eq_refl) as [mn [mx [_ [_ ->]]]]. rewrite with_minmax_clip, clip_fbw_idem by assumption.
        cbn [with_minmax q_fbw q_clip]. auto.
      - rewrite (Fr eq_refl). rewrite clip_fbw_idem by assumption. auto. }
    destruct Q as [Q1 [Q2 Q3]].
    unfold ginv. split; [assumption|]. split; [intros _; assumption|]. split; [rewrite Q3; assumption|].
    intros g v Hg Hv. destruct record; [|apply J4; assumption].
    apply (proj2 (logged_app _ _ _ _ _)) in Hv. destruct Hv as [[j Hj]|Hv]; [|apply J4; assumption].
    assert (Lp : j * prodn rest + g < prodn (shape y)) by (rewrite <- W; apply nth_error_Some; congruence).
    specialize (El (j * prodn rest + g) (qz 0) Lp). apply inference_grid in El.
    rewrite (nth_error_nth _ _ _ Hj) in El. rewrite Sy, S2, <- Hm in El.
    rewrite (pad_to_eq _ (repeat 1 (length pre) ++ rest)) in El by (rewrite !app_length, repeat_length; reflexivity).
    rewrite bidx_prefix in El by (rewrite <- Sy; assumption).
    rewrite (Nat.add_comm (j * prodn rest)), Nat.mod_add, Nat.mod_small in El by lia. rewrite J1 in El. assumption.
Qed.
Lemma ginv_run pw ln2 m rest F ops : forall st st', hinv m rest st -> Forall (ok_op m rest) ops -> Forall inference_op ops ->
  ginv rest F st -> hrun pw ln2 st ops = Ok st' -> ginv rest F st'.
Proof.
  induction ops as [|op ops IH]; intros [q log] st' I Fo Fi J E; cbn [hrun] in E.
  - injection E as <-. assumption.
  - inversion Fo as [|? ? F1 F2]; subst. inversion Fi as [|? ? G1 G2]; subst.
    destruct (hstep pw ln2 (q, log) op) as [st1|] eqn:E1; cbn [rbind] in E; [|discriminate].
    eapply IH; [eapply hstep_inv; eassumption|assumption|assumption|eapply ginv_step; eassumption|eassumption].
Qed.

(** Calibrate at inference, then derive bits: every logged value fits. *)
Lemma history_bits pw ln2 m rest f s strategy exact lo hi ops q log bits :
  prefix_skip s m -> reg_ok m rest f -> (lo <= hi)%Qc -> Forall (ok_op m rest) ops -> Forall inference_op ops ->
  (qz (-32) <= lo)%Qc -> (hi <= qz 94)%Qc ->
  hrun pw ln2 (hgq_build f s strategy exact (Some (lo, hi)), []) ops = Ok (q, log) ->
  get_bits_exact q false = Ok bits ->
  forall g v, g < prodn rest -> logged (prodn rest) g log v ->
    (forall u, logged (prodn rest) g log u -> (- pow2 32 <= u)%Qc /\ (u < pow2 32)%Qc) ->
    exists k i fb, nth_error bits g = Some (k, i, fb) /\ fits k i fb v.
Proof.
  intros Hs Hf Hc Fo Fi Hlo Hhi R Hb g v Hg Hv Hu.
  pose proof (hinv_build m rest f s strategy exact (Some (lo, hi)) Hs Hf) as I0.
  pose proof (hrun_inv pw ln2 m rest ops _ _ I0 Fo R) as I.
  set (F := tmap (fun x => clip_by_value x lo hi) f).
  assert (J0 : ginv rest F (hgq_build f s strategy exact (Some (lo, hi)), [])).
  { unfold ginv. split; [reflexivity|]. split; [intros C; contradiction|]. split; [exact Hc|]. intros g0 v0 _ [y [[] _]]. }
  pose proof (ginv_run pw ln2 m rest F ops _ _ I0 Fo Fi J0 R) as [J1 [J2 [J3 J4]]].
  assert (NL : log <> []) by (destruct Hv as [y [Hy _]]; intros ->; destruct Hy).
  specialize (J2 NL).
  destruct I as [H1 [[F1 F2] [[M1 M2] [[X1 X2] [L [G Ly]]]]]].
  destruct (least_le _ _ _ (L g Hg) Hv) as [a [Ea [Pa La]]]. destruct (greatest_ge _ _ _ (G g Hg) Hv) as [b [Eb [Pb Lb]]].
  unfold get_bits_exact in Hb. cbv zeta in Hb.
  destruct (forallb _ _); cbn [negb] in Hb; [|discriminate]. injection Hb as <-.
  assert (Na : nth_error (data (q_min q)) g = Some (Fin a)) by (rewrite (nth_error_nth' _ PosInf) by lia; congruence).
  assert (Nb : nth_error (data (q_max q)) g = Some (Fin b)) by (rewrite (nth_error_nth' _ NegInf) by lia; congruence).
  assert (Nf : nth_error (data (q_fbw q)) g = Some (nth g (data F) (qz 0)))
    by (rewrite J2; apply nth_error_nth'; rewrite <- J2; lia).
  rewrite nth_error_map, (combine_nth_error _ _ _ _ _ (combine_nth_error _ _ _ _ _ Na Nb) Nf).
  cbn [option_map fst snd fin].
  destruct (bits_exact_elem false a b (nth g (data F) (qz 0))) as [[k i] fb] eqn:E.
  exists k, i, fb. split; [reflexivity|].
  assert (CB : (lo <= nth g (data F) (qz 0))%Qc /\ (nth g (data F) (qz 0) <= hi)%Qc).
  { unfold F. cbn [tmap data]. destruct Hf as [Hf1 Hf2].
    rewrite nth_indep with (d' := clip_by_value (qz 0) lo hi) by (rewrite map_length; lia).
    rewrite (map_nth (fun x => clip_by_value x lo hi)). apply clip_bounds; assumption. }
  assert (RB : (-32 <= qround_even (nth g (data F) (qz 0)) <= 94)%Z).
  { destruct CB as [C1 C2]. rewrite <- (qround_even_qz (-32)), <- (qround_even_qz 94).
    split; apply qround_even_mono; eapply Qcle_trans; eassumption. }
  apply bits_cover_minimal with (r := qround_even (nth g (data F) (qz 0))) in E;
    try apply nearest_even_ex; try assumption; try (apply J4; assumption); try apply Hu; try assumption.
  2: { eapply Qcle_trans; eassumption. }
  pose proof (J4 g v Hg Hv) as Gv.
  destruct E as [[-> [-> [-> [-> ->]]]]|[_ [_ [_ [-> [_ [Cov _]]]]]]]; [|apply Cov; assumption].
  assert (v = qz 0) by (apply Qcle_antisym; assumption). subst v.
  split; [apply grid_0|]. split; vm_compute; [discriminate|reflexivity].
Qed.
