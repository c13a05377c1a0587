(** Lookup tables in networks: the conditions of Spec/NetEval.v hold after the
    conversion pass. *)
From Coq Require Import ZArith Qcanon List Bool String Lia Arith.
From Verif Require Import Base.Num Base.NumFacts Base.Tensor Model.FixedPoint Model.Precision Model.Lut Spec.Fixed Spec.Precision Spec.NetEval.
From Verif Require Import Proofs.FixedPointP Proofs.FixedPointLayerP Proofs.FitsP Proofs.PrecisionP Proofs.SoundP Proofs.ReduceP Proofs.MergeP Proofs.ConfigP Proofs.LutP Proofs.RegisterP.
Import ListNotations.
Open Scope Z_scope.

Lemma result_le fuel net n s r s' : result_kifRS fuel net n s = Ok (r, s') -> store_le s' s.
Proof.
  unfold result_kifRS. destruct (fusible_result net n s) as [[t|]|]; cbn [rbind]; [intros H; apply okpair in H as [_ <-]; apply store_le_refl| |discriminate].
  destruct (nth_error net n) as [[kd ps]|]; [|discriminate]. intros H.
  assert (G : rbind (produced fuel net n s) (fun p => rbind (requested fuel net n (snd p)) (fun q => Ok ((merge_precision (fst p) q, "TRN"%string, "WRAP"%string), snd p))) = Ok (r, s') -> store_le s' s).
  { clear H. intros H. destruct (produced fuel net n s) as [[t s1]|] eqn:E; [|discriminate]. cbn [rbind fst snd] in H.
    destruct (requested fuel net n s1); [|discriminate]. cbn [rbind] in H. apply okpair in H as [_ <-]. apply (produced_le _ _ _ _ _ _ E). }
  destruct kd; try (exact (G H)). destruct (derived_result net n s); [|discriminate]. cbn [rbind] in H. apply okpair in H as [_ <-]. apply store_le_refl.
Qed.
Lemma xfr_le limit hls fuel net n s mx r s' : xfr_to_unary_lut limit hls fuel net n s mx = Ok (r, s') -> store_le s' s.
Proof.
  unfold xfr_to_unary_lut. destruct (nth_error net n) as [[kd ps]|]; [|discriminate]. intros H.
  assert (K : Ok (Kept, s) = Ok (r, s') -> store_le s' s) by (intros E; apply okpair in E as [_ <-]; apply store_le_refl).
  destruct kd; try exact (K H).
  assert (G : rbind (input_kifs fuel net ps s) (fun r => match fst r with [] => Raise | [(k, i, f)] => if qltb (qz mx) (pow2 (k + i + f)) then Ok (Kept, snd r)
      else rbind (result_kifRS fuel net n (snd r)) (fun o => rbind (from_activation limit hls func (k, i, f) (fst o)) (fun l => Ok (Replaced l, snd o))) | _ => Ok (Kept, snd r) end) = Ok (r, s') -> store_le s' s).
  { clear H. intros H. destruct (input_kifs fuel net ps s) as [[ts s1]|] eqn:E; [|discriminate]. cbn [rbind fst snd] in H.
    pose proof (input_kifs_le _ _ (produced_le fuel net) _ _ _ _ E) as L1.
    destruct ts as [|[[k i] f] [|? ?]]; [discriminate| |apply okpair in H as [_ <-]; exact L1].
    destruct (qltb (qz mx) (pow2 (k + i + f))); [apply okpair in H as [_ <-]; exact L1|].
    destruct (result_kifRS fuel net n s1) as [[o s2]|] eqn:ER; [|discriminate]. cbn [rbind fst snd] in H.
    destruct (from_activation limit hls func (k, i, f) o); [|discriminate]. cbn [rbind] in H. apply okpair in H as [_ <-].
    eapply store_le_trans; [apply (result_le _ _ _ _ _ _ ER)|exact L1]. }
  destruct a; try exact (K H); exact (G H).
Qed.
Lemma pass_le limit hls fuel net mx : forall order s tabs s', lut_pass limit hls fuel net mx order s = Ok (tabs, s') -> store_le s' s.
Proof.
  induction order as [|n order IH]; intros s tabs s' H; cbn in H; [apply okpair in H as [_ <-]; apply store_le_refl|].
  destruct (xfr_to_unary_lut limit hls fuel net n s mx) as [[r s1]|] eqn:E; [|discriminate]. cbn [rbind fst snd] in H.
  destruct (lut_pass limit hls fuel net mx order s1) as [[t s2]|] eqn:E2; [|discriminate]. cbn [rbind fst snd] in H. apply okpair in H as [_ <-].
  eapply store_le_trans; [apply (IH _ _ _ E2)|apply (xfr_le _ _ _ _ _ _ _ _ _ E)].
Qed.
(** When the pass leaves the quantizers as they were, so did every step. *)
Lemma pass_tables limit hls fuel net mx : forall order s tabs, lut_pass limit hls fuel net mx order s = Ok (tabs, s) ->
  forall n l, In (n, l) tabs -> In n order /\ xfr_to_unary_lut limit hls fuel net n s mx = Ok (Replaced l, s).
Proof.
  induction order as [|m order IH]; intros s tabs H n l I; cbn in H; [apply okpair in H as [<- _]; destruct I|].
  destruct (xfr_to_unary_lut limit hls fuel net m s mx) as [[r s1]|] eqn:E; [|discriminate]. cbn [rbind fst snd] in H.
  destruct (lut_pass limit hls fuel net mx order s1) as [[t s2]|] eqn:E2; [|discriminate]. cbn [rbind fst snd] in H. apply okpair in H as [HT H2]. subst s2.
  pose proof (xfr_le _ _ _ _ _ _ _ _ _ E) as L1. pose proof (pass_le _ _ _ _ _ _ _ _ _ E2) as L2. pose proof (store_le_antisym _ _ L2 L1) as <-.
  destruct r as [|l'].
  - subst t. destruct (IH _ _ E2 n l I). split; [right; assumption|assumption].
  - subst tabs. destruct I as [I|I].
    + assert (m = n /\ l' = l) as [-> ->] by (split; congruence). split; [left; reflexivity|exact E].
    + destruct (IH _ _ E2 n l I). split; [right; assumption|assumption].
Qed.
Lemma table_of_in tabs n l : table_of tabs n = Some l -> In (n, l) tabs.
Proof.
  unfold table_of. destruct (find (fun t => Nat.eqb (fst t) n) tabs) as [[m l']|] eqn:E; [|discriminate]. intros H. apply find_some in E as [I B]. cbn in B, H. apply Nat.eqb_eq in B. congruence.
Qed.

(** Replacing a layer by its table at a state that the derivation does not
    change. *)
Lemma replaced_ok limit hls fuel net n s mx l : all_fine net s -> good_readers (S fuel) net s n ->
  xfr_to_unary_lut limit hls (S fuel) net n s mx = Ok (Replaced l, s) -> table_ok net s n l.
Proof.
  intros AF [F74 QR] HX. pose proof (xfr_spec _ _ _ _ _ _ _ _ _ HX) as (a & func & ps & k & i & f & s1 & r & En & A1 & A2 & A3 & HI & HM & HR & HF).
  assert (s1 = s).
  { apply store_le_antisym; [apply (input_kifs_le _ _ (produced_le (S fuel) net) _ _ _ _ HI)|apply (result_le _ _ _ _ _ _ HR)]. }
  subst s1. pose proof (input_kifs_fix _ _ _ _ _ HI) as HP. destruct ps as [|p [|? ?]]; [inversion HP| |inversion HP as [|? ? ? ? _ X]; inversion X]. inversion HP as [|? ? ? ? Hp _]; subst. clear HP.
  assert (Hf : f <= 1074) by (apply (F74 p k i f); [exists (NAct a func); exact En|exact Hp]).
  destruct (produced_sound (S fuel) net s AF p (k, i, f) Hp) as [Hk Fits]. cbn [fst snd] in Hk, Fits.
  exists a, func, p. split; [exact En|]. split; [exact A1|]. destruct r as [[[[ko io] fo] R] V].
  assert (LX : forall x, value net s p x -> lut_call l x = gfixed_quantizer (func x) ko (ko + io + fo) (ko + io) R V) by (intros x Vx; apply (lut_exact _ _ _ _ _ _ _ _ _ _ _ _ x HF Hk Hf); apply Fits; exact Vx).
  destruct QR as [(FN & k0 & i0 & f0 & k1 & i1 & f1 & HP & HQ & B1 & B2 & B3)|[(m & q & o & Eo & Em & Eq & Lo & He)|(FN & k0 & i0 & f0 & k1 & i1 & f1 & k2 & i2 & f2 & HP & HQ & EM & HW & RD)]].
  - assert (NI : forall ps, nth_error net n <> Some (NInput, ps)) by (intros ps; rewrite En; discriminate).
    destruct (result_merged _ _ _ _ _ _ _ _ _ _ _ _ HR FN NI HP HQ) as (EM & -> & ->).
    destruct (produced_sound (S fuel) net s AF n (k0, i0, f0) HP) as [Hk0 Fits0]. cbn [fst snd] in Hk0, Fits0.
    assert (EX : forall x, value net s p x -> lut_call l x = Ok (func x)).
    { intros x Vx. rewrite (LX x Vx). apply (merge_exact k0 i0 f0 k1 i1 f1 ko io fo (func x) Hk0 B1); [apply Fits0; apply (v_act net s n p a func x En A1 Vx)|exact B2|exact B3|exact EM]. }
    split; [intros x Vx; rewrite (EX x Vx); eauto|left; exact EX].
  - pose proof Lo as (_ & LF & HRn & HSn).
    assert (RT : (ko, io, fo) = result_t_kif o /\ R = rnd_name o /\ V = sat_name o).
    { unfold result_kifRS, fusible_result in HR. rewrite Eo, Em, Eq in HR. unfold fusible in HR. cbn [List.length Nat.eqb negb hd] in HR. rewrite Eo in HR. cbn [List.length Nat.eqb negb rbind] in HR.
      rewrite He in HR. cbn [negb rbind] in HR. apply okpair in HR as [HR _]. repeat split; congruence. }
    destruct RT as (RT & -> & ->). split.
    + intros x Vx. rewrite (LX x Vx). apply (gfixed_ok (func x) ko (ko + io + fo) (ko + io) _ _ HRn HSn).
    + right. intros m' kd ps Em' I. assert (m' = m) as ->.
      { assert (IO : In m' (out_layers net n)) by (apply in_out; exists kd, ps; auto). rewrite Eo in IO. destruct IO as [IO|[]]. congruence. }
      rewrite Em in Em'. assert (kd = NFpq q /\ ps = [n]) as [-> ->] by (split; congruence). split; [reflexivity|]. exists q. split; [reflexivity|].
      intros o' c x Eo' Hc Vx. assert (o' = o) by congruence. subst o'. pose proof (proj1 (Forall_forall _ _) LF c Hc) as (Lk & Lb & L1 & L2).
      assert (S8 : i8_safe c) by (split; lia). rewrite (result_t_kif_homog o c He Hc S8) in RT. assert (ko = kn c /\ io = ints c - kn c /\ fo = bits c - ints c) as (-> & -> & ->) by (repeat split; congruence).
      rewrite (LX x Vx). replace (kn c + (ints c - kn c) + (bits c - ints c)) with (bits c) by lia. replace (kn c + (ints c - kn c)) with (ints c) by lia.
      fold (quant o c (func x)). destruct (gfixed_ok (func x) (kn c) (bits c) (ints c) _ _ HRn HSn) as [y Ey]. fold (quant o c (func x)) in Ey. rewrite Ey. cbn [rbind].
      destruct (gfixed_ok y (kn c) (bits c) (ints c) _ _ HRn HSn) as [z Ez]. fold (quant o c y) in Ez. rewrite Ez. f_equal. exact (gfixed_idem _ _ _ _ _ _ _ _ Lk Lb Ey Ez).
  - assert (NI : forall ps, nth_error net n <> Some (NInput, ps)) by (intros ps; rewrite En; discriminate).
    destruct (result_merged _ _ _ _ _ _ _ _ _ _ _ _ HR FN NI HP HQ) as (EM' & -> & ->). rewrite EM in EM'. assert (k2 = ko /\ i2 = io /\ f2 = fo) as (-> & -> & ->) by (repeat split; congruence).
    destruct (produced_sound (S fuel) net s AF n (k0, i0, f0) HP) as [Hk0 Fits0]. cbn [fst snd] in Hk0, Fits0.
    assert (VN : forall x, value net s p x -> fits k0 i0 f0 (func x)) by (intros x Vx; apply Fits0; apply (v_act net s n p a func x En A1 Vx)).
    assert (T1 : In "TRN"%string rounding_names) by (cbn; auto 10). assert (T2 : In "WRAP"%string overflow_names) by (cbn; auto 10).
    split.
    + intros x Vx. rewrite (LX x Vx). apply (gfixed_ok (func x) ko (ko + io + fo) (ko + io) _ _ T1 T2).
    + right. intros m kd ps Em I. destruct (RD m kd ps Em I) as (-> & q & -> & RQ). split; [reflexivity|]. exists q. split; [reflexivity|].
      intros o c x Eo Hc Vx. destruct (RQ o Eo) as (Lo & TR & RC). specialize (RC c Hc).
      rewrite (LX x Vx). destruct (gfixed_ok (func x) ko (ko + io + fo) (ko + io) _ _ T1 T2) as [z Ez]. rewrite Ez. cbn [rbind].
      assert (IO : In m (out_layers net n)) by (apply in_out; exists (NFpq q), [n]; auto).
      destruct (requested_ge fuel net n s k1 i1 f1 m q [n] o HQ IO Em Eo) as [Ri Rf].
      exact (merge_transparent k0 i0 f0 k1 i1 f1 ko io fo o c (func x) z Lo Hc TR Hk0 (VN x Vx) Ri Rf EM HW RC Ez).
Qed.
