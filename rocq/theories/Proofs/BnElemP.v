(** Elements of the output of a standalone batch normalisation layer (C56). *)
From Coq Require Import ZArith QArith Qcanon List Bool Lia Arith.
From Verif Require Import Base.Num Base.NumFacts Base.Tensor Model.FixedPoint Model.Quantizer Model.Layers Model.BatchNorm
  Spec.Fixed Spec.Quant Spec.Layer Spec.Trace Spec.BnLayer Spec.BnAxes Proofs.QuantizerP Proofs.RecordP Proofs.CallP Proofs.SampleP Proofs.ShapeP Proofs.HistoryP Proofs.TensorP Proofs.BatchNormP
  Proofs.BnLayerP Proofs.BnAxesP.
Import ListNotations.
Local Open Scope nat_scope.

Lemma bshape_into x a y b : bshape (x :: a) (y :: b) = Some (y :: b) <-> bshape a b = Some b /\ (x = y \/ x = 1).
Proof.
  cbn [bshape]. split.
  - destruct (bshape a b) as [s|]; [|discriminate]. destruct (Nat.eqb_spec x y) as [->|N]; [intros H; injection H as ->; auto|].
    destruct (Nat.eqb_spec x 1) as [->|N1]; [intros H; injection H as ->; auto|]. destruct (Nat.eqb_spec y 1); [|discriminate]. intros H. injection H as H _. congruence.
  - intros [-> [->| ->]]; [rewrite Nat.eqb_refl; reflexivity|]. destruct (Nat.eqb_spec 1 y) as [->|]; reflexivity.
Qed.
Lemma bshape_between a : forall b d r, bshape a d = Some d -> bshape b d = Some d -> bshape a b = Some r -> bshape a r = Some r /\ bshape b r = Some r /\ bshape r d = Some d.
Proof.
  induction a as [|x a IH]; intros [|y b] [|z d] r H1 H2 H3; try discriminate.
  - injection H3 as <-. auto.
  - apply bshape_into in H1, H2. destruct H1 as [H1 X], H2 as [H2 Y]. cbn [bshape] in H3. destruct (bshape a b) as [s|] eqn:E; [|discriminate].
    destruct (IH _ _ _ H1 H2 E) as [A [B C]].
    destruct (Nat.eqb_spec x y) as [->|N]; [injection H3 as <-; rewrite !bshape_into; tauto|].
    destruct (Nat.eqb_spec x 1) as [->|N1]; [injection H3 as <-; rewrite !bshape_into; tauto|].
    destruct (Nat.eqb_spec y 1) as [->|N2]; [injection H3 as <-; rewrite !bshape_into; tauto|discriminate].
Qed.
Lemma bidx_comp a : forall r d e, bshape a r = Some r -> bshape r d = Some d -> e < prodn d -> bidx a r (bidx r d e) = bidx a d e.
Proof.
  induction a as [|x a IH]; intros [|y r] [|z d] e H1 H2 He; try discriminate; [reflexivity|]. apply bshape_into in H1, H2. destruct H1 as [H1 X], H2 as [H2 Y].
  rewrite prodn_cons in He. assert (NZ : prodn d <> 0) by (intros Z; rewrite Z in He; lia). cbn [bidx].
  assert (R : e mod prodn d < prodn d) by (apply Nat.mod_upper_bound, NZ). pose proof (bidx_lt r d (e mod prodn d) H2 R) as LT.
  set (j := bidx r d (e mod prodn d)) in *. set (h := if Nat.eqb y 1 then 0 else e / prodn d). assert (NR : prodn r <> 0) by lia.
  replace ((h * prodn r + j) / prodn r) with h by (rewrite Nat.div_add_l by exact NR; rewrite Nat.div_small by exact LT; lia).
  replace ((h * prodn r + j) mod prodn r) with j by (rewrite Nat.add_comm, Nat.mod_add by exact NR; rewrite Nat.mod_small by exact LT; reflexivity).
  unfold j. rewrite (IH _ _ _ H1 H2 R). f_equal. unfold h. destruct (Nat.eqb_spec x 1); [reflexivity|]. destruct (Nat.eqb_spec y 1); [lia|reflexivity].
Qed.

Section E.
  Variable pw : Qc -> Qc.
  Variable ln2 : Qc.

  Lemma forward_at q x record noise y q' : forward pw ln2 q x false record noise = Ok (y, q') -> length (shape x) = length (shape (q_fbw q)) ->
    bshape (shape x) (shape (q_fbw q)) = Some (shape y) /\ forall p, p < prodn (shape y) ->
      nth p (data y) (qz 0) = qval (q_strategy q) (nth (bidx (shape (q_fbw q)) (shape y) p) (data (q_fbw q)) (qz 0)) (nth (bidx (shape x) (shape y) p) (data x) (qz 0)).
  Proof.
    intros E L. destruct (forward_elems _ _ _ _ _ _ _ _ _ E) as [B [_ [N _]]]. rewrite broadcast_eq_rank in B by exact L. split; [exact B|]. intros p Hp.
    specialize (N p (qz 0) Hp). destruct (bshape_length _ _ _ B) as [_ L2]. rewrite !pad_to_eq in N by congruence. rewrite forward_inference in N. injection N as N. symmetry. exact N.
  Qed.
End E.

Lemma fbw_clip_shape q : shape (q_fbw (clip_fbw q)) = shape (q_fbw q).
Proof. unfold clip_fbw. destruct (q_clip q) as [[lo hi]|]; reflexivity. Qed.
Lemma strategy_clip q : q_strategy (clip_fbw q) = q_strategy q.
Proof. unfold clip_fbw. destruct (q_clip q) as [[lo hi]|]; reflexivity. Qed.
Lemma bidx_one s n dims p : p < n * prodn dims -> bidx (1 :: s) (n :: dims) p = bidx s dims (p mod prodn dims).
Proof. intros _. cbn [bidx Nat.eqb]. lia. Qed.

Section Main.
  Variable rsqrt pw : Qc -> Qc.
  Variable ln2 : Qc.

  Lemma bnorm_elements l n dims keep bw kb x rec n1 n2 n3 y l' : let s := 1 :: kept keep dims in
    length keep = length dims -> shape (m_gamma l) = s -> shape (m_beta l) = s -> shape (m_mean l) = s -> shape (m_var l) = s -> shape x = n :: dims ->
    shape (q_fbw (m_kq l)) = 1 :: kb -> bshape kb (kept keep dims) = Some (kept keep dims) ->
    shape (q_fbw (m_paq l)) = 1 :: bw -> bshape bw dims = Some dims -> clip_ok (m_paq l) ->
    bnorm_forward rsqrt pw ln2 l x false rec n1 n2 n3 = Ok (y, l') ->
    shape y = n :: dims /\ forall i e, i < n -> e < prodn dims ->
      let c := channel keep dims e in let at_ t := nth c (data t) (qz 0) in
      let ker := (at_ (m_gamma l) * rsqrt (at_ (m_var l) + m_eps l))%Qc in
      let fk := nth (bidx kb (kept keep dims) c) (data (q_fbw (clip_fbw (m_kq l)))) (qz 0) in
      let f := nth (bidx bw dims e) (data (q_fbw (clip_fbw (m_paq l)))) (qz 0) in
      nth (i * prodn dims + e) (data y) (qz 0) =
      qval (q_strategy (m_paq l)) f (qval (q_strategy (m_kq l)) fk ker * nth (i * prodn dims + e) (data x) (qz 0) +
        qval (q_strategy (m_paq l)) f (at_ (m_beta l) - at_ (m_mean l) / ker))%Qc.
  Proof.
    intros s L Sg Sb Sm Sv Sx Sk Bk Sp Bp Hcl E. unfold bnorm_forward in E. cbn [rbind] in E. apply rbind_ok in E. destruct E as [z [EZ E]].
    apply rbind_ok in E. destruct E as [[y' q'] [EY E]]. cbn [fst snd] in E. injection E as -> _. unfold bnorm_z in EZ.
    destruct (bmap2_same (qz 0) (qz 0) (fun g v => (g * rsqrt (v + m_eps l))%Qc) (m_gamma l) (m_var l)) as (ker & E1 & S1 & _ & N1); [congruence|]. rewrite E1 in EZ. cbn [rbind] in EZ.
    destruct (bmap2_same (qz 0) (qz 0) Qcdiv (m_mean l) ker) as (mk & E2 & S2 & _ & N2); [congruence|]. rewrite E2 in EZ. cbn [rbind] in EZ.
    destruct (bmap2_same (qz 0) (qz 0) Qcminus (m_beta l) mk) as (bias & E3 & S3 & _ & N3); [congruence|]. rewrite E3 in EZ. cbn [rbind] in EZ.
    apply rbind_ok in EZ. destruct EZ as [qker [EK EZ]]. apply rbind_ok in EK. destruct EK as [[qker' q1] [EK EE]]. cbn [fst] in EE. injection EE as ->.
    apply rbind_ok in EZ. destruct EZ as [qbias [EB EZ]]. apply rbind_ok in EB. destruct EB as [[qbias' q2] [EB EE]]. cbn [fst] in EE. injection EE as ->.
    apply rbind_ok in EZ. destruct EZ as [kx [EX EZ]].
    assert (Sker : shape ker = s) by congruence. assert (Sbias : shape bias = s) by congruence. rewrite Sm in N2. rewrite Sb in N3. rewrite Sg in N1.
    pose proof (bshape_kept keep dims L) as KD. destruct (bshape_length _ _ _ KD) as [LK _]. destruct (bshape_length _ _ _ Bk) as [LB _]. destruct (bshape_length _ _ _ Bp) as [LP _].
    unfold call in EK, EB, EY. rewrite (clip_fbw_idem _ Hcl) in EY.
    (* the quantized scale *)
    pose proof (forward_at pw ln2 _ _ _ _ _ _ EK) as FEK. destruct FEK as [BK NK]; [rewrite fbw_clip_shape, Sk, Sker; unfold s; cbn [length]; congruence|]. rewrite fbw_clip_shape, Sk, Sker in BK, NK. rewrite strategy_clip in NK.
    unfold s in BK. cbn [bshape] in BK. rewrite bshape_comm, Bk in BK. cbn [Nat.eqb] in BK. assert (Sq : shape qker = s) by (unfold s; congruence). clear BK. rewrite Sq in NK.
    (* the quantized bias *)
    pose proof (forward_at pw ln2 _ _ _ _ _ _ EB) as FEB. destruct FEB as [BB NB]; [rewrite fbw_clip_shape, Sp, Sbias; unfold s; cbn [length]; congruence|]. rewrite fbw_clip_shape, Sp, Sbias in BB, NB. rewrite strategy_clip in NB.
    unfold s in BB. cbn [bshape] in BB. destruct (bshape (kept keep dims) bw) as [r|] eqn:ER; [|discriminate]. cbn [Nat.eqb] in BB. assert (Sqb : shape qbias = 1 :: r) by congruence. clear BB. rewrite Sqb in NB.
    destruct (bshape_between _ _ _ _ KD Bp ER) as [RA [RB RC]]. destruct (bshape_length _ _ _ RC) as [LR _].
    (* the product and the sum *)
    destruct (bmap2_ok _ _ _ _ _ _ EX) as [BX [_ NX]]. rewrite Sq, Sx in BX. unfold s in BX. rewrite broadcast_eq_rank in BX by (cbn [length]; congruence). rewrite (proj2 (bshape_into 1 _ n _) (conj KD (or_intror eq_refl))) in BX.
    assert (Skx : shape kx = n :: dims) by congruence. clear BX. rewrite Skx, Sq, Sx in NX. rewrite pad_to_eq in NX by (unfold s; cbn [length]; congruence). rewrite pad_to_eq in NX by reflexivity.
    destruct (bmap2_ok _ _ _ _ _ _ EZ) as [BZ [_ NZ]]. rewrite Skx, Sqb in BZ. rewrite broadcast_eq_rank in BZ by (cbn [length]; congruence). rewrite bshape_comm, (proj2 (bshape_into 1 _ n _) (conj RC (or_intror eq_refl))) in BZ.
    assert (Sz : shape z = n :: dims) by congruence. clear BZ. rewrite Sz, Skx, Sqb in NZ. rewrite pad_to_eq in NZ by reflexivity. rewrite pad_to_eq in NZ by (cbn [length]; congruence).
    (* the output *)
    pose proof (forward_at pw ln2 _ _ _ _ _ _ EY) as FEY. destruct FEY as [BY NY]; [rewrite fbw_clip_shape, Sp, Sz; cbn [length]; congruence|]. rewrite fbw_clip_shape, Sp, Sz in BY, NY. rewrite strategy_clip in NY.
    rewrite bshape_comm, (proj2 (bshape_into 1 _ n _) (conj Bp (or_intror eq_refl))) in BY. assert (Sy : shape y = n :: dims) by congruence. split; [exact Sy|]. clear BY. rewrite Sy in NY.
    intros i e Hi He. cbv zeta. assert (Hp : i * prodn dims + e < prodn (n :: dims)) by (rewrite prodn_cons; nia).
    assert (ME : (i * prodn dims + e) mod prodn dims = e) by (rewrite Nat.add_comm, Nat.mod_add by lia; apply Nat.mod_small, He).
    pose proof (channel_lt keep dims e L He) as Hc. pose proof (bidx_lt r dims e RC He) as Hr.
    rewrite NY by exact Hp. rewrite TensorP.bidx_self by exact Hp. rewrite NZ by exact Hp. rewrite TensorP.bidx_self by exact Hp. rewrite NX by exact Hp. rewrite TensorP.bidx_self by exact Hp. rewrite prodn_cons in Hp. unfold s. rewrite !bidx_one by exact Hp. rewrite !ME.
    rewrite bidx_kept by assumption. set (c := channel keep dims e) in *.
    assert (HC : c < prodn s) by (unfold s; rewrite BnAxesP.prodn_kept1; exact Hc).
    rewrite NB by (rewrite BnAxesP.prodn_kept1; exact Hr). rewrite NK by exact HC. rewrite TensorP.bidx_self by exact HC. unfold s.
    rewrite (bidx_one kb 1) by lia. rewrite (bidx_one bw 1) by lia. rewrite (bidx_one _ 1) by lia. rewrite (Nat.mod_small _ (prodn r)) by exact Hr. rewrite (Nat.mod_small c) by exact Hc.
    rewrite (bidx_comp bw r dims e RB RC He), (bidx_comp (kept keep dims) r dims e RA RC He), bidx_kept by assumption. fold c.
    rewrite N3 by exact HC. rewrite N2 by exact HC. rewrite N1 by exact HC. reflexivity.
  Qed.
End Main.
