(** The types as registered layer by layer carry the values of runs without
    overflow. *)
From Coq Require Import ZArith Qcanon List Bool String Ascii Permutation Lia Arith.
From Verif Require Import Base.Num Base.NumFacts Base.Tensor Model.FixedPoint Model.Apf Model.Precision Model.Lut Spec.Fixed Spec.Apf Spec.Precision Spec.NetEval Spec.Firmware Spec.Quiet.
From Verif Require Import Proofs.FixedPointP Proofs.FixedPointLayerP Proofs.FitsP Proofs.PrecisionP Proofs.SoundP Proofs.ReduceP Proofs.ApfP Proofs.MergeP Proofs.ConfigP Proofs.NetEvalP Proofs.TableSizeP Proofs.RegisterP Proofs.TablesP Proofs.IdemP Proofs.FirmwareP Proofs.QuietP.
Import ListNotations.
Open Scope Z_scope.

(** ** One element *)

(** Like merge_transparent, for a format with the resolution of c and not more
    integer bits. *)
Lemma merge_narrow k0 i0 f0 k1 i1 f1 k i f o c kq bq iq y z :
  legal_fpq o -> In c (data (cfgs o)) -> (rnd_name o = "TRN" \/ rnd_name o = "RND")%string ->
  (kq = 0 \/ kq = 1) -> kq <= bq -> bq - iq = bits c - ints c -> iq <= ints c ->
  (k0 = 0 \/ k0 = 1) -> fits k0 i0 f0 y -> snd (fst (fpq_request o)) <= i1 -> snd (fpq_request o) <= f1 ->
  merge_precision (k0, i0, f0) (k1, i1, f1) = (k, i, f) -> 0 <= i + f ->
  (i0 <= i1 \/ (sat_name o = "WRAP"%string /\ (k0 = 1 \/ kn c = 0 \/ ints c - kn c < i1))) ->
  gfixed_quantizer y k (k + i + f) (k + i) "TRN" "WRAP" = Ok z ->
  gfixed_quantizer z kq bq iq (rnd_name o) (sat_name o) = gfixed_quantizer y kq bq iq (rnd_name o) (sat_name o).
Proof.
  intros [NE [LF [HR HS]]] Hc TR Hkq Hbq Hfq Hiq Hk Fy Ri Rf EM HW Cond Ez.
  assert (Lc : legal_fmt c) by (rewrite Forall_forall in LF; auto). pose proof (legal_safe c Lc) as SC. destruct Lc as [Kc [Bc _]].
  destruct (result_t_kif o) as [[rk ri] rf] eqn:ER. destruct (result_t_kif_ge o rk ri rf c ER Hc SC) as [G1 [G2 G3]].
  assert (EF : snd (fpq_request o) = if String.eqb (rnd_name o) "TRN" then rf else if String.eqb (rnd_name o) "RND" then rf + 1 else rf + 2).
  { unfold fpq_request. rewrite ER. reflexivity. }
  assert (EI : snd (fst (fpq_request o)) = if (String.eqb (sat_name o) "WRAP" || String.eqb (sat_name o) "WRAP_SM")%bool then ri else 65535).
  { unfold fpq_request. rewrite ER. reflexivity. }
  assert (MK : k = k0 /\ f = Z.min f0 f1 /\ ((f1 < f0 /\ i0 <= i1 /\ i = i0 + 1) \/ ((f0 <= f1 \/ i1 < i0) /\ i = Z.min i0 i1))).
  { unfold merge_precision in EM. set (ii := if (Z.ltb f1 f0 && Z.leb i0 i1)%bool then Z.min i0 i1 + 1 else Z.min i0 i1) in EM.
    assert (E1 : k0 = k) by congruence. assert (E2 : ii = i) by congruence. assert (E3 : Z.min f0 f1 = f) by congruence.
    split; [lia|split; [lia|]]. unfold ii in E2. destruct (Z.ltb_spec f1 f0), (Z.leb_spec i0 i1); cbn [andb] in E2; lia. }
  destruct MK as [-> [Ef Ei]].
  assert (GU : f0 <= f \/ guard_ok (rnd_name o) f (bq - iq)).
  { destruct (Z_le_dec f0 f); [left; assumption|]. right. unfold guard_ok. rewrite EF in Rf. destruct TR as [T|T]; rewrite T in *; cbn in Rf; [left|right]; split; auto; lia. }
  destruct (Z_le_dec i0 i1) as [L|L].
  - (* no overflow *)
    eapply via_fit with (ky := k0) (iy := i0) (fy := f0) (i := i) (f := f) (k := k0); auto; try lia. destruct GU as [GU|GU]; auto.
  - destruct Cond as [|[W Cond]]; [lia|]. rewrite W in *. assert (i = i1) by lia. subst i. rewrite EI in Ri. cbn in Ri. assert (LI : iq <= k0 + i1) by lia.
    destruct GU as [GU|GU].
    + destruct (Z_le_dec (bq - iq) f) as [LF2|LF2].
      * destruct TR as [T|T]; rewrite T in *.
        -- eapply via_wrap with (k := k0) (i := i1) (f := f); eauto; left; split; auto.
        -- destruct (Z_le_dec (bq - iq + 1) f).
           ++ eapply via_wrap with (k := k0) (i := i1) (f := f); eauto; right; split; auto.
           ++ eapply via_wrap_grid with (k := k0) (i := i1) (f := f); eauto; [eapply grid_weaken; [exact GU|apply Fy]|lia].
      * eapply via_wrap_grid with (k := k0) (i := i1) (f := f); eauto; [eapply grid_weaken; [exact GU|apply Fy]|lia].
    + eapply via_wrap with (k := k0) (i := i1) (f := f); eauto.
Qed.

Lemma shrunk_transparent k0 i0 f0 k1 i1 f1 k i f o r o' j c c' a b :
  nice o -> low o -> plain_fpq o -> fpq_produced (k0, i0, f0) o = (r, o') -> shrinks_evenly o r ->
  nth_error (data (cfgs o)) j = Some c -> nth_error (data (cfgs o')) j = Some c' -> in_format o c a -> (rnd_name o = "TRN" \/ rnd_name o = "RND")%string ->
  (k0 = 0 \/ k0 = 1) -> fits k0 i0 f0 a -> snd (fst (fpq_request o)) <= i1 -> snd (fpq_request o) <= f1 ->
  merge_precision (k0, i0, f0) (k1, i1, f1) = (k, i, f) -> 0 <= i + f ->
  (i0 <= i1 \/ (sat_name o = "WRAP"%string /\ (k0 = 1 \/ kn c = 0 \/ ints c - kn c < i1))) ->
  gfixed_quantizer a k (k + i + f) (k + i) "TRN" "WRAP" = Ok b -> quant o' c' b = quant o' c' a.
Proof.
  intros N L [LQ NS] E SH Hj Hj' IF TR Hk Fa Ri Rf EM HW Cond Ez. pose proof (nth_error_In _ _ Hj) as Hc.
  pose proof E as E0. unfold fpq_produced in E. destruct (result_t_kif o) as [[ok oi] of] eqn:ER. cbv zeta in E.
  set (kr := Z.min k0 ok) in *. set (fr := Z.min f0 of) in *. set (ir := if (Z.leb i0 oi && Z.ltb fr f0)%bool then Z.min i0 oi + 1 else Z.min i0 oi) in *.
  destruct (negb (Z.eqb kr ok) || negb (Z.eqb ir oi) || negb (Z.eqb fr of))%bool.
  2: { assert (o' = o) by congruence. subst o'. assert (c' = c) by congruence. subst c'. unfold quant. eapply (merge_transparent k0 i0 f0 k1 i1 f1 k i f o c a b); eauto. }
  assert (Er : r = (kr, ir, fr)) by congruence. assert (Eo : o' = reduce_fpq (kr, ir, fr) o) by congruence. subst r o'. clear E.
  destruct (result_spec o ok oi of N L ER) as (S1 & S0 & _). destruct (S1 c Hc) as (K & A1 & A2). destruct LQ as (NE & LF & HR & HS).
  pose proof (proj1 (Forall_forall _ _) LF c Hc) as (L1 & L2 & _). destruct SH as [W SH]. specialize (SH c Hc).
  assert (Ec' : c' = reduce_elem (kr, ir, fr) c).
  { cbn [reduce_fpq cfgs data tmap] in Hj'. rewrite nth_error_map, Hj in Hj'. cbn [option_map] in Hj'. congruence. }
  subst c'.
  destruct (Z.eq_dec (bits c) 0) as [B0|B0].
  { assert (B' : bits (reduce_elem (kr, ir, fr) c) = 0) by (unfold reduce_elem; cbn [bits]; unfold kr in *; lia).
    rewrite !no_bits_quant by assumption. reflexivity. }
  destruct IF as [?|(n & Hn & Hcode)]; [contradiction|]. destruct SH as [?|SH]; [contradiction|].
  unfold quant, reduce_elem. cbn [kn bits ints reduce_fpq rnd_name sat_name].
  set (b' := Z.min (bits c) (kr + ir + fr)). set (a' := Z.min (ints c) (kr + ir)).
  assert (Kb : kr <= b') by (unfold b', kr in *; lia).
  assert (G : b' - a' = bits c - ints c \/ (f0 <= b' - a' /\ f0 <= bits c - ints c)).
  { unfold b', a', ir in *. destruct (Z.leb_spec i0 oi), (Z.ltb_spec fr f0); cbn [andb] in *; unfold fr in *; lia. }
  destruct G as [G|[G1 G2]].
  - apply (merge_narrow k0 i0 f0 k1 i1 f1 k i f o c _ b' a' a b); auto; try (unfold b', a', kr in *; lia). split; [exact NE|auto].
  - (* nothing is rounded: stored as it is *)
    assert (EA : (qz n * pow2 (- (bits c - ints c)))%Qc = a) by (destruct Fa as (Ga & _); exact (grid_rounds _ f0 _ a n Ga G2 Hn)).
    assert (FC : fits (kn c) (ints c - kn c) (bits c - ints c) a).
    { rewrite <- EA. replace (- (bits c - ints c)) with (ints c - bits c) by lia. apply (scaled_code (kn c) (bits c) (ints c) n); auto. }
    assert (EF : of <= snd (fpq_request o)) by (unfold fpq_request; rewrite ER; cbn [snd]; destruct (String.eqb (rnd_name o) "TRN"), (String.eqb (rnd_name o) "RND"); lia).
    assert (F1 : f0 <= f1) by lia.
    unfold merge_precision in EM. destruct (Z.ltb_spec f1 f0) as [?|_]; [lia|]. cbn [andb] in EM. assert (k0 = k /\ Z.min i0 i1 = i /\ Z.min f0 f1 = f) as (<- & <- & <-) by (repeat split; congruence).
    rewrite (Z.min_l f0 f1) in * by lia.
    enough (FB : fits k0 (Z.min i0 i1) f0 a).
    { assert (X : gfixed_quantizer a k0 (k0 + Z.min i0 i1 + f0) (k0 + Z.min i0 i1) "TRN" "WRAP" = Ok a) by (apply (cast_fits k0 (Z.min i0 i1) f0 a Hk HW FB)). rewrite X in Ez. assert (b = a) by congruence. subst b. reflexivity. }
    destruct (Z_le_dec i0 i1) as [Q|Q]; [rewrite Z.min_l by lia; exact Fa|]. rewrite Z.min_r by lia. destruct Cond as [?|[WR Cond]]; [lia|].
    assert (EI : oi <= i1) by (unfold fpq_request in Ri; rewrite ER, WR in Ri; cbn in Ri; exact Ri).
    destruct Fa as (Ga & X1 & X2). destruct FC as (_ & Y1 & Y2). split; [exact Ga|]. pose proof (pow2_le (ints c - kn c) i1 ltac:(lia)) as P1. pose proof (pow2_pos (ints c - kn c)) as P0. split; [|qlra].
    destruct Hk as [-> | ->].
    + replace (qz 0 * pow2 i0)%Qc with (qz 0) in X1 by (change (qz 0) with 0%Qc; ring). replace (qz 0 * pow2 i1)%Qc with (qz 0) by (change (qz 0) with 0%Qc; ring). exact X1.
    + change (qz 1) with 1%Qc. rewrite Qcmult_1_l. destruct L1 as [EK|EK]; rewrite EK in *.
      * replace (qz 0 * pow2 (ints c - 0))%Qc with (qz 0) in Y1 by (change (qz 0) with 0%Qc; ring). qlra.
      * change (qz 1) with 1%Qc in Y1. rewrite Qcmult_1_l in Y1. qlra.
Qed.

(** An input's precision never shrinks a quantizer. *)
Lemma input_keeps o : nice o -> low o -> forall r o', fpq_produced (1, 65535, 65535) o = (r, o') -> o' = o.
Proof.
  intros N L r o' E. destruct (result_t_kif o) as [[ok oi] of] eqn:ER. destruct (result_spec o ok oi of N L ER) as (_ & S0 & (ci & Ii & Ei) & (cf & If & Ef)).
  destruct N as [_ N]. unfold low in L. rewrite Forall_forall in N, L. pose proof (N ci Ii). pose proof (L ci Ii). pose proof (N cf If). pose proof (L cf If).
  unfold fpq_produced in E. rewrite ER in E. cbv zeta in E. rewrite (Z.min_r 1 ok), (Z.min_r 65535 oi), (Z.min_r 65535 of) in E by lia.
  destruct (Z.leb_spec 65535 oi); [lia|]. cbn [andb] in E. rewrite !Z.eqb_refl in E. cbn [negb orb] in E. congruence.
Qed.

(** ** Networks *)

Section Staged.
  Variable (fuel : nat) (net : pnet) (s s' : pst) (sn : nat -> pst) (geo : nat -> list recipe) (feed : nat -> list Qc) (opaque : nat -> list (list Qc) -> list Qc).
  Variable (confs : nat -> list (string * string)) (sizes : nat -> option Z) (tables : nat -> option ulut) (adder : nat -> recipe -> hwt -> list Qc -> result Qc).
  Variable out : list (list Qc).
  (** s: before registration; s': after; sn n: right after layer n. *)
  Hypothesis AF : forall n kd ps, nth_error net n = Some (kd, ps) -> all_fine net (sn n).
  Hypothesis HC : forall n kd ps, nth_error net n = Some (kd, ps) -> (forall t, kd <> NLut t) -> layer_config (S fuel) net n (sn n) None = Ok ((confs n, sizes n), sn n).
  Hypothesis SY : forall n kd ps, nth_error net n = Some (kd, ps) -> synthesized (S fuel) net (sn n) tables n.
  Hypothesis AD : adding adder.
  Hypothesis RS : forall n kd ps m, nth_error net n = Some (kd, ps) -> removed net (sn n) m = removed net s' m.
  Hypothesis RQ : forall p kd ps m q, nth_error net p = Some (kd, ps) -> nth_error net m = Some (NFpq q, [p]) -> nth_error (sn p) q = nth_error s q.
  Hypothesis SH : forall p kd ps m q, nth_error net p = Some (kd, ps) -> nth_error net m = Some (NFpq q, [p]) -> nth_error s' q = nth_error s q \/
    exists t o r o', (forall fu u, produced fu net p (sn p) = Ok (u, sn p) -> u = t) /\ nth_error s q = Some o /\ fpq_produced t o = (r, o') /\ nth_error s' q = Some o' /\
      shrinks_evenly o r /\ nice o /\ low o /\ plain_fpq o.
  Hypothesis QU : quiet net s geo out.
  Hypothesis AT : forall n kd ps, nth_error net n = Some (kd, ps) -> attainable (sn n) net out.
  Let types (n : nat) : string -> option hwt := type_named (confs n).

  Definition stored_at (n : nat) (a b : Qc) : Prop :=
    (removed net s' n = true /\ b = a) \/
    ((exists t ps l, nth_error net n = Some (NLut t, ps) /\ tables n = Some l /\ In a (lut_table l)) /\ b = a) \/
    ((forall t ps, nth_error net n <> Some (NLut t, ps)) /\ removed net s' n = false /\ exists k i f R V, result_kifRS (S fuel) net n (sn n) = Ok (((k, i, f), R, V), sn n) /\ gfixed_quantizer a k (k + i + f) (k + i) R V = Ok b).

  (** What a removed quantizer would have done is done by the layer before. *)
  Lemma staged_removed m q p o c a b : removed net s' m = true -> nth_error net m = Some (NFpq q, [p]) -> nth_error s q = Some o -> In c (data (cfgs o)) ->
    (exists kd ps, nth_error net p = Some (kd, ps)) -> stored_at p a b -> quant o c a = Ok b.
  Proof.
    intros RM Em Eo Hc (kd & ps & Ep) ST. rewrite <- (RS p kd ps m Ep) in RM. destruct (removed_spec net (sn p) m RM) as (q' & p' & o' & Em' & Eo' & He & EO & FR).
    assert (q' = q /\ p' = p) as [-> ->] by (split; congruence). rewrite (RQ p kd ps m q Ep Em) in Eo'. assert (o' = o) by congruence. subst o'.
    pose proof (RS p kd ps p Ep) as RSp.
    destruct (SY p kd ps Ep) as [(RP & FN)|[LU|(NL & _ & RP & k & i & f & R & V & HR & Hk & W1 & W0 & HRn & HVn & _ & RD)]]; [congruence|..].
    { destruct LU as (l & p0 & k & i & f & ko & io & fo & EL & TL & _ & _ & _ & FQ). destruct ST as [[RP _]|[[(t & ps' & l' & _ & TL' & IA) ->]|(NL & _)]].
      - apply removed_spec in RP as (? & ? & ? & X & _). congruence.
      - assert (l' = l) by congruence. subst l'. apply (FQ m q o c a RM Em); auto. rewrite (RQ p kd ps m q Ep Em). exact Eo.
      - destruct (NL _ _ EL). }
    destruct ST as [[? _]|[[(t & ps' & l' & X & _) _]|(_ & _ & k' & i' & f' & R' & V' & HR' & EB)]]; [congruence|destruct (NL _ _ X)|]. rewrite HR in HR'.
    assert (k' = k /\ i' = i /\ f' = f /\ R' = R /\ V' = V) as (-> & -> & -> & -> & ->) by (repeat split; congruence). clear HR'.
    assert (LG : legal_fpq o).
    { destruct RD as [(m' & q' & o' & EO' & Em'' & Eo'' & LG & _)|[(_ & FN & _)|(_ & [(FN & _)|(FN & _)])]]; [|congruence..].
      assert (m' = m) by congruence. subst m'. assert (q' = q) by congruence. subst q'. rewrite (RQ p kd ps m q Ep Em) in Eo''. congruence. }
    unfold result_kifRS in HR. rewrite FR in HR. cbn [rbind] in HR. apply okpair in HR as [HR _].
    destruct LG as (_ & LF & _). pose proof (proj1 (Forall_forall _ _) LF c Hc) as (Lk & Lb & L1 & L2). assert (S8 : i8_safe c) by (split; lia).
    rewrite (result_t_kif_homog o c He Hc S8) in HR. assert (k = kn c /\ i = ints c - kn c /\ f = bits c - ints c /\ R = rnd_name o /\ V = sat_name o) as (-> & -> & -> & -> & ->) by (repeat split; congruence).
    unfold quant. rewrite <- EB. f_equal; lia.
  Qed.

  Definition exact_at' (p : nat) : Prop := forall a b, value net (sn p) p a -> stored_at p a b -> b = a.
  Definition read_by_quantizers' (p : nat) : Prop :=
    forall m kd ps, nth_error net m = Some (kd, ps) -> In p ps -> ps = [p] /\ exists q, kd = NFpq q /\
      (removed net s' m = false -> forall o c o' c' j a b, nth_error s q = Some o -> nth_error (data (cfgs o)) j = Some c -> nth_error s' q = Some o' -> nth_error (data (cfgs o')) j = Some c' ->
        in_format o c a -> value net (sn p) p a -> stored_at p a b -> quant o' c' b = quant o' c' a).
  Lemma staged_carried p kd ps : nth_error net p = Some (kd, ps) -> exact_at' p \/ read_by_quantizers' p.
  Proof.
    intros Ep. pose proof (AF p kd ps Ep) as AFp. pose proof (RS p kd ps p Ep) as RSp.
    destruct (SY p kd ps Ep) as [(RP & FN)|[LU|(NL & _ & RP & k & i & f & R & V & HR & Hk & W1 & W0 & HRn & HVn & _ & RD)]].
    - left. intros a b _ [[_ ->]|[[_ ->]|(_ & ? & _)]]; [reflexivity|reflexivity|congruence].
    - left. destruct LU as (l & p0 & k & i & f & ko & io & fo & EL & _). intros a b _ [[_ ->]|[[_ ->]|(NL & _)]]; [reflexivity|reflexivity|destruct (NL _ _ EL)].
    - assert (ST : forall a b, stored_at p a b -> gfixed_quantizer a k (k + i + f) (k + i) R V = Ok b).
      { intros a b [[? _]|[[(t & ps' & l' & X & _) _]|(_ & _ & k' & i' & f' & R' & V' & HR' & EB)]]; [congruence|destruct (NL _ _ X)|]. rewrite HR in HR'.
        assert (k' = k /\ i' = i /\ f' = f /\ R' = R /\ V' = V) as (-> & -> & -> & -> & ->) by (repeat split; congruence). exact EB. }
      destruct RD as [(m & q & o & EO & Em & Eo & LG & He)|[((ps0 & EI) & FN & VN & RD)|(NI & [(FN & k0 & i0 & f0 & k1 & i1 & f1 & HP & HQ & B1 & B2 & B3)|(FN & k0 & i0 & f0 & k1 & i1 & f1 & k2 & i2 & f2 & HP & HQ & EM & HW & RD)])]].
      + right. intros m' kd' ps' Em' I. assert (m' = m) as ->.
        { assert (IO : In m' (out_layers net p)) by (apply in_out; exists kd', ps'; auto). rewrite EO in IO. destruct IO as [IO|[]]. congruence. }
        rewrite Em in Em'. assert (kd' = NFpq q /\ ps' = [p]) as [-> ->] by (split; congruence). split; [reflexivity|]. exists q. split; [reflexivity|].
        intros RM. pose proof (one_removed net (sn p) p m q o EO Em Eo He) as X. rewrite (RS p kd ps m Ep) in X. congruence.
      + right. intros m kd' ps' Em I. destruct (RD m kd' ps' Em I) as (-> & q & -> & RQ'). split; [reflexivity|]. exists q. split; [reflexivity|].
        intros _ o c o' c' j a b Eo Hc Eo' Hc' IF VA SA. apply ST in SA. rewrite (RQ p kd ps m q Ep Em) in RQ'. destruct (RQ' o Eo) as (Lo & TR).
        assert (o' = o).
        { destruct (SH p kd ps m q Ep Em) as [X|(t & o1 & r & o2 & PT & S1 & F1 & S2 & _ & N1 & L1 & _)]; [congruence|]. assert (o1 = o) by congruence. subst o1. assert (o2 = o') by congruence. subst o2.
          assert (t = (1, 65535, 65535)) by (symmetry; apply (PT 1%nat); cbn [produced]; rewrite EI; reflexivity). subst t. eapply input_keeps; eauto. }
        subst o'. assert (c' = c) by congruence. subst c'.
        assert (IO : In m (out_layers net p)) by (apply in_out; exists (NFpq q), [p]; cbn; auto).
        unfold result_kifRS in HR. rewrite FN, EI in HR. cbn [rbind] in HR. destruct (derived_result net p (sn p)) as [r|] eqn:ED; [|discriminate]. cbn [rbind] in HR. apply okpair in HR as [-> _].
        refine (input_transparent net p (sn p) k i f R V m q [p] o c a b ED Hk IO Em _ Lo (nth_error_In _ _ Hc) TR VN SA). rewrite (RQ p kd ps m q Ep Em). exact Eo.
      + left. intros a b VA SA. apply ST in SA. destruct (result_merged _ _ _ _ _ _ _ _ _ _ _ _ HR FN NI HP HQ) as (EM & -> & ->).
          destruct (produced_sound (S fuel) net (sn p) AFp p (k0, i0, f0) HP) as [Hk0 Fits0]. cbn [fst snd] in Hk0, Fits0.
          rewrite (merge_exact k0 i0 f0 k1 i1 f1 k i f a Hk0 B1 (Fits0 a VA) B2 B3 EM) in SA. congruence.
      + destruct (result_merged _ _ _ _ _ _ _ _ _ _ _ _ HR FN NI HP HQ) as (EM' & -> & ->). rewrite EM in EM'. assert (k2 = k /\ i2 = i /\ f2 = f) as (-> & -> & ->) by (repeat split; congruence).
        destruct (produced_sound (S fuel) net (sn p) AFp p (k0, i0, f0) HP) as [Hk0 Fits0]. cbn [fst snd] in Hk0, Fits0.
        right. intros m kd' ps' Em I. destruct (RD m kd' ps' Em I) as (-> & q & -> & RQ'). split; [reflexivity|]. exists q. split; [reflexivity|].
        intros _ o c o' c' j a b Eo Hc Eo' Hc' IF VA SA. apply ST in SA. pose proof (RQ p kd ps m q Ep Em) as EQ. rewrite EQ in RQ'. destruct (RQ' o Eo) as (Lo & TR & RC). specialize (RC c (nth_error_In _ _ Hc)).
        assert (IO : In m (out_layers net p)) by (apply in_out; exists (NFpq q), [p]; cbn; auto).
        destruct (requested_ge fuel net p (sn p) k1 i1 f1 m q [p] o HQ IO Em ltac:(congruence)) as [Ri Rf].
        destruct (SH p kd ps m q Ep Em) as [X|(t & o1 & r & o2 & PT & S1 & F1 & S2 & SE & N1 & L1 & P1)].
        * assert (o' = o) by congruence. subst o'. assert (c' = c) by congruence. subst c'.
          exact (merge_transparent k0 i0 f0 k1 i1 f1 k i f o c a b Lo (nth_error_In _ _ Hc) TR Hk0 (Fits0 a VA) Ri Rf EM HW RC SA).
        * assert (o1 = o) by congruence. subst o1. assert (o2 = o') by congruence. subst o2. pose proof (PT _ _ HP) as ET. subst t.
          exact (shrunk_transparent k0 i0 f0 k1 i1 f1 k i f o r o' j c c' a b N1 L1 P1 F1 SE Hc Hc' IF TR Hk0 (Fits0 a VA) Ri Rf EM HW RC SA).
  Qed.

  Lemma staged_config_at n kd ps k i f R V : nth_error net n = Some (kd, ps) -> (forall t, kd <> NLut t) -> result_kifRS (S fuel) net n (sn n) = Ok (((k, i, f), R, V), (sn n)) ->
    match kd with
    | NKernel _ _ _ => True
    | NAct a _ => types n "table_t" = read_type (tuple_to_apf (k, i, f) R V true) /\
        (types n "result_t" = read_type (tuple_to_apf (k, i, f) R V true) \/ types n "result_t" = read_type (tuple_to_apf (k, i, f) "TRN" "WRAP" true))
    | _ => types n "result_t" = read_type (tuple_to_apf (k, i, f) R V true)
    end.
  Proof.
    intros En NL HR. pose proof (HC n kd ps En NL) as H. rewrite config_main in H. unfold main_conf in H. rewrite En in H. unfold types.
    destruct kd; try (rewrite HR in H; cbn [rbind fst snd] in H; destruct (check_types _) as [[]|]; cbn [rbind] in H; [|discriminate]; apply okpair in H as [H _];
      pose proof (f_equal fst H) as HT; cbn [fst] in HT; rewrite <- HT; reflexivity); [|exact I].
    unfold config_table in H. rewrite HR in H. cbn [rbind fst snd] in H. destruct (input_kifs _ _ _ _) as [[l s2]|]; cbn [rbind fst snd] in H; [|discriminate].
    destruct (kifs_max l) as [[[ik ii] jf]|]; cbn [rbind] in H; [|discriminate]. destruct (Z.ltb (ik + ii + jf) 0); [discriminate|]. cbn [rbind] in H.
    destruct (check_types _) as [[]|]; cbn [rbind] in H; [|discriminate]. apply okpair in H as [H _]. pose proof (f_equal fst H) as HT. cbn [fst] in HT. rewrite <- HT.
    split; [reflexivity|]. destruct a; (left; reflexivity) || (right; reflexivity).
  Qed.
  Lemma staged_kernel_step n kernel div bias p : nth_error net n = Some (NKernel kernel div bias, [p]) -> forall pk pi pf, produced (S fuel) net n (sn n) = Ok ((pk, pi, pf), (sn n)) ->
    (pk = 0 \/ pk = 1) /\ (forall y, value net (sn n) n y -> fits pk pi pf y) /\ Forall plain_value kernel /\
    (forall u xs, Forall (fun x => value net (sn n) p x \/ x = qz 0) xs -> Forall (on_grid pf) (products (column kernel div u) xs)) /\
    (forall l u b, bias = Some l -> 0 <= u < div -> nth_error l (Z.to_nat u) = Some b -> on_grid pf b).
  Proof.
    intros En pk pi pf HP. pose proof (AF n _ _ En) as AFn. destruct (produced_sound (S fuel) net (sn n) AFn n (pk, pi, pf) HP) as [Hpk FV]. cbn [fst snd] in Hpk, FV. split; [exact Hpk|]. split; [exact FV|].
    pose proof HP as HP0. rewrite produced_S, En in HP. destruct (step_fix _ _ _ _ _ _ HP) as [ts HI]. pose proof AFn as [AF1 _].
    pose proof (AF1 n _ _ fuel ts (pk, pi, pf) En HI HP0) as NF. cbn [node_fine] in NF. destruct NF as (Hd & _ & _ & PV & _ & HB). split; [exact PV|].
    cbn [step] in HP. rewrite HI in HP. cbn [rbind fst snd] in HP. pose proof (input_kifs_fix _ _ _ _ _ HI) as FI. inversion FI as [|? t ? ? Hp FI']; subst. inversion FI'; subst.
    apply okpair in HP as [HP _]. destruct t as [[ik ii] jf]. destruct (produced_sound fuel net (sn n) AFn p (ik, ii, jf) Hp) as [Hik FP]. cbn [fst snd] in Hik, FP.
    unfold kernel_produced in HP. destruct (get_arr_container kernel) as [[wk wi] wf] eqn:EC. assert (pf = jf + wf) by congruence. subst pf. split.
    - intros u xs FX. destruct (column_fits kernel div PV u wk wi wf EC) as (_ & _ & _ & FW). unfold products. apply Forall_map, Forall_forall. intros [w x] IP. cbn [fst snd].
      replace (jf + wf) with (wf + jf) by lia. apply grid_mul.
      + apply (proj1 (Forall_forall _ _) FW w). apply (in_combine_l _ _ _ _ IP).
      + destruct (proj1 (Forall_forall _ _) FX x (in_combine_r _ _ _ _ IP)) as [VX| ->]; [apply FP, VX|apply grid_0].
    - intros l u b -> Hu Eb. cbn [snd] in HB. apply (HB ik ii jf u b); auto. left. reflexivity.
  Qed.
  Lemma staged_kernel_element n kernel div bias ps ins r y k i f R V : nth_error net n = Some (NKernel kernel div bias, ps) -> Forall2 (fun p x => Forall (value net (sn n) p) x) ps ins ->
    result_kifRS (S fuel) net n (sn n) = Ok (((k, i, f), R, V), (sn n)) -> (k = 0 \/ k = 1) -> 1 <= k + i + f -> 0 <= i + f -> In R rounding_names -> In V overflow_names -> accumulates (S fuel) net (sn n) n k i f R V ->
    element s' (NKernel kernel div bias) (List.length ins) ins r = Ok y ->
    exists z, fw_element net s' types adder n (NKernel kernel div bias) (List.length ins) ins r = Ok z /\ gfixed_quantizer y k (k + i + f) (k + i) R V = Ok z.
  Proof.
    intros En FI HR Hk W1 W0 HRn HVn AC H. pose proof (element_value (sn n) net n _ ps ins r y En FI H) as VY. unfold accumulates in AC. rewrite En in AC. destruct AC as (pk & pi & pf & HP & AC).
    pose proof (forall2_len _ _ _ FI) as LE. unfold element in H. unfold fw_element. destruct (fetches ins (r_src r)) as [xs|] eqn:X; [|discriminate]. cbn [rbind] in H |- *.
    apply demand_ok in H as [B H]. rewrite B. cbn [negb]. apply andb_true_iff in B as [B B4]. apply andb_true_iff in B as [B B3]. apply andb_true_iff in B as [B1 B2]. apply Nat.eqb_eq in B1, B4. apply Z.ltb_lt in B3.
    rewrite <- LE in B1. destruct ps as [|p [|? ?]]; try discriminate.
    pose proof (fetches_pad (sn n) net p ins (r_src r) xs FI B2 X) as VX.
    destruct (staged_kernel_step n kernel div bias p En pk pi pf HP) as (Hpk & FV & PV & GP & GB). specialize (GP (Z.of_nat (r_ch r)) xs VX).
    pose proof (HC n _ _ En ltac:(discriminate)) as HCn.
    destruct (kernel_types _ _ _ _ _ _ _ _ _ _ _ _ _ _ _ _ _ _ _ _ _ _ En HCn HR HP) as (T1 & T2 & T3 & T4). cbn [acc_f] in T2, T3.
    destruct (get_arr_container kernel) as [[wk wi] wf] eqn:EC. destruct (column_fits kernel div PV (Z.of_nat (r_ch r)) wk wi wf EC) as (Hwk & Ww1 & Ww2 & FW).
    rewrite (read_acc wk wi wf Hwk Ww1) in T1. rewrite (read_result k i f R V Hk W1 HRn HVn) in T4.
    assert (TA : exists ak ai, read_type (if String.eqb V "WRAP" then tuple_to_apf (k, i, pf) "TRN" "WARP" true else tuple_to_apf (pk, pi, pf) "TRN" "WARP" true) = Some (acc_type ak ai pf)).
    { destruct AC as [(-> & _ & A2 & _)|(NV & _ & A2)]; [cbn [String.eqb Ascii.eqb Bool.eqb]; rewrite (read_acc k i pf Hk A2); eauto|]. apply String.eqb_neq in NV. rewrite NV, (read_acc pk pi pf Hpk A2). eauto. }
    destruct TA as (ak & ai & TA). rewrite TA in T2, T3.
    assert (CT : forall t : hwt, In (h_rnd t) rounding_names -> In (h_sat t) overflow_names -> forall x, exists z, cast t x = Ok z) by (intros t A1 A2 x; apply gfixed_ok; assumption).
    assert (NT : In "TRN"%string rounding_names) by (cbn; auto 10). assert (NW : In "WRAP"%string overflow_names) by (cbn; auto 10).
    set (ws := column kernel div (Z.of_nat (r_ch r))) in *.
    destruct (total_map (cast (acc_type wk wi wf)) ws) as (ws' & EW & _); [apply CT; assumption|].
    assert (EW' : rseq (map (as_type types n "weight_t") ws) = Ok ws') by (rewrite <- EW; f_equal; apply map_ext; intros w; unfold as_type, types; rewrite T1; reflexivity).
    rewrite EW'. cbn [rbind].
    set (bo := match bias with None => None | Some l => nth_error l (r_ch r) end).
    assert (HB : y = (dotq ws xs + match bo with None => qz 0 | Some v => v end)%Qc /\ exists b', match bo with None => b' = qz 0 | Some v => cast (acc_type ak ai pf) v = Ok b' end /\
      match bias with None => Ok (qz 0) | Some l => match nth_error l (r_ch r) with Some b => as_type types n "bias_t" b | None => Raise end end = Ok b').
    { subst bo. destruct bias as [l|].
      - destruct (nth_error l (r_ch r)) as [b|] eqn:Eb; [|discriminate]. split; [congruence|]. destruct (CT (acc_type ak ai pf) NT NW b) as [b' Eb']. exists b'. split; [exact Eb'|]. unfold as_type, types. rewrite T3. exact Eb'.
      - split; [congruence|]. exists (qz 0). split; reflexivity. }
    destruct HB as (EY & b' & Eb' & EB'). rewrite EB'. cbn [rbind]. unfold types at 1. rewrite T2.
    destruct (AD n r (acc_type ak ai pf) (products ws' xs ++ [b'])) as (acc & EA & SA); [destruct (products ws' xs); discriminate|exact NT|exact NW|]. unfold products in EA, SA. rewrite EA. cbn [rbind].
    unfold as_type, types. rewrite T4. destruct (CT (mkHw k (k + i + f) (k + i) R V) HRn HVn acc) as [z EZ]. exists z. split; [exact EZ|].
    change (cast (mkHw k (k + i + f) (k + i) R V) y = Ok z). rewrite EY.
    refine (kernel_exact (S fuel) net n (sn n) None kernel div bias [p] (confs n) (sizes n) (sn n) k i f R V (sn n) pk pi pf (sn n) En HCn HR HP Hk W1 HRn HVn PV (Z.of_nat (r_ch r)) xs bo z eq_refl _ GP _ _).
    - destruct AC as [(-> & A1 & A2 & A3)|(NV & A1 & A2)]; [left; auto 10|right]. repeat split; auto; rewrite EY in VY; apply (FV _ VY).
    - subst bo. destruct bias as [l|]; [|exact I]. destruct (nth_error l (r_ch r)) as [b|] eqn:Eb; [|exact I]. apply (GB l (Z.of_nat (r_ch r)) b eq_refl); [lia|rewrite Nat2Z.id; exact Eb].
    - exists (acc_type wk wi wf), (acc_type ak ai pf), (acc_type ak ai pf), (mkHw k (k + i + f) (k + i) R V), ws', b', acc. repeat split; assumption.
  Qed.
  Lemma staged_in_table_point n a func ps : nth_error net n = Some (NAct a func, ps) -> in_table (S fuel) net (sn n) n -> forall k i f R V, result_kifRS (S fuel) net n (sn n) = Ok (((k, i, f), R, V), (sn n)) ->
    match a with
    | ATanh => exists size p, ps = [p] /\ sizes n = Some size /\ forall x, value net (sn n) p x -> tabulated 4 size x = x
    | ASigmoid => exists size p, ps = [p] /\ sizes n = Some size /\ forall x, value net (sn n) p x -> tabulated 8 size x = x
    | _ => True
    end.
  Proof.
    intros En IT k i f R V HR. pose proof (AF n _ _ En) as AFn. unfold in_table in IT. rewrite En in IT. pose proof (HC n _ _ En ltac:(discriminate)) as H.
    destruct a; try exact I; destruct IT as (p & ik & ii & jf & -> & HP & B1 & B2); destruct (config_size _ _ _ _ _ _ _ _ _ _ _ _ _ _ _ _ _ En H HR HP) as [W ->];
    destruct (produced_sound (S fuel) net (sn n) AFn p (ik, ii, jf) HP) as [Hk FV]; cbn [fst snd] in Hk, FV; eexists; exists p; (split; [reflexivity|]; split; [reflexivity|]); intros x VX; destruct (FV x VX) as (G & L & U).
    - change 8 with (2 ^ 3) at 1. rewrite (table_size_pow 3 jf) by lia. replace (3 + jf) with (2 + 1 + jf) by lia. change 4 with (2 ^ 2). apply tabulated_exact; [lia|lia|exact G| |].
      + pose proof (pow2_le ii 2 B1) as PL. pose proof (pow2_pos ii) as P0. destruct Hk as [-> | ->].
        * replace (qz 0 * pow2 ii)%Qc with (qz 0) in L by (change (qz 0) with 0%Qc; ring). qlra.
        * replace (qz 1 * pow2 ii)%Qc with (pow2 ii) in L by (change (qz 1) with 1%Qc; ring). qlra.
      + pose proof (pow2_le ii 2 B1) as PL. qlra.
    - change 16 with (2 ^ 4) at 1. rewrite (table_size_pow 4 jf) by lia. replace (4 + jf) with (3 + 1 + jf) by lia. change 8 with (2 ^ 3). apply tabulated_exact; [lia|lia|exact G| |].
      + pose proof (pow2_le ii 3 B1) as PL. pose proof (pow2_pos ii) as P0. destruct Hk as [-> | ->].
        * replace (qz 0 * pow2 ii)%Qc with (qz 0) in L by (change (qz 0) with 0%Qc; ring). qlra.
        * replace (qz 1 * pow2 ii)%Qc with (pow2 ii) in L by (change (qz 1) with 1%Qc; ring). qlra.
      + pose proof (pow2_le ii 3 B1) as PL. qlra.
  Qed.
  Lemma staged_lut_layer n t ps : nth_error net n = Some (NLut t, ps) -> looked_up (S fuel) net (sn n) tables n.
  Proof.
    intros En. destruct (SY n _ _ En) as [(RN & _)|[LU|(NL & _)]]; [|exact LU|destruct (NL _ _ En)]. apply removed_spec in RN as (? & ? & ? & X & _). congruence.
  Qed.
  Lemma staged_fw_layer n kd ps ins y : nth_error net n = Some (kd, ps) -> removed net s' n = false -> (match kd with NFpq _ => True | _ => Forall2 (fun p x => Forall (value net (sn n) p) x) ps ins end) ->
    layer_out s' geo feed opaque tables n kd ins = Ok y ->
    exists y', fw_out net s' geo feed opaque types sizes tables adder n kd ins = Ok y' /\ Forall2 (stored_at n) y y'.
  Proof.
    intros En RN FI H. pose proof (AF n kd ps En) as AFn. pose proof (RS n kd ps n En) as RSn. destruct (SY n kd ps En) as [(? & _)|[LU|(NL & IT & _ & k & i & f & R & V & HR & Hk & W1 & W0 & HRn & HVn & AC & _)]]; [congruence|..].
    { destruct LU as (l & p & k & i & f & ko & io & fo & En' & T & HP & Lf & FT & _). assert (kd = NLut (ko, io, fo) /\ ps = [p]) as [-> ->] by (split; congruence).
      cbn [layer_out fw_out] in H |- *. destruct ins as [|x [|? ?]]; try discriminate. rewrite T in H. rewrite T. inversion FI as [|? ? ? ? VX _]; subst.
      destruct (produced_sound (S fuel) net (sn n) AFn p (k, i, f) HP) as [Hk FV]. cbn [fst snd] in Hk, FV. exists y. apply rseq_forall2 in H.
      assert (Q : Forall2 (fun a b => lookup l a = Ok b /\ In b (lut_table l)) x y).
      { clear -H VX FV Lf. induction H as [|a b x y E H IH]; [constructor|]. inversion VX as [|? ? V1 V2]; subst. constructor; [|apply IH; exact V2].
        apply (lookup_call l a); [|exact E]. destruct (FV a V1) as [G _]. apply (grid_weaken f); [exact Lf|exact G]. }
      split; [apply forall2_rseq; clear -Q; induction Q as [|a b x y [E _] Q IH]; constructor; assumption|].
      clear -Q En T. induction Q as [|a b x y [_ E] Q IH]; constructor; [|exact IH]. right. left. split; [|reflexivity]. exists (ko, io, fo), [p], l. auto. }
    assert (NT : forall t, kd <> NLut t) by (intros t ->; destruct (NL _ _ En)).
    pose proof (staged_config_at n kd ps k i f R V En NT HR) as CA. rewrite (read_result k i f R V Hk W1 HRn HVn) in CA.
    set (rt := mkHw k (k + i + f) (k + i) R V) in *.
    assert (ST : forall a b, cast rt a = Ok b -> stored_at n a b) by (intros a b E; right; right; split; [exact NL|]; split; [exact RN|]; exists k, i, f, R, V; split; [exact HR|exact E]).
    assert (CT : forall x, exists z, cast rt x = Ok z) by (intros x; apply gfixed_ok; assumption).
    (* casting a list *)
    assert (LI : forall g : Qc -> result Qc, (forall x, g x = cast rt x) -> forall l, exists y', rseq (map g l) = Ok y' /\ Forall2 (stored_at n) l y').
    { intros g G l. destruct (total_map (cast rt) l CT) as (l' & E & F). exists l'. split; [rewrite <- E; f_equal; apply map_ext; exact G|]. clear -F ST. induction F; constructor; auto. }
    (* layers computing element by element *)
    assert (GE : (forall r v, element s' kd (List.length ins) ins r = Ok v -> exists z, fw_element net s' types adder n kd (List.length ins) ins r = Ok z /\ stored_at n v z) ->
      rseq (map (element s' kd (List.length ins) ins) (geo n)) = Ok y ->
      exists y', rseq (map (fw_element net s' types adder n kd (List.length ins) ins) (geo n)) = Ok y' /\ Forall2 (stored_at n) y y').
    { intros E1 E. apply rseq_forall2 in E. clear H. induction E as [|r v rs ys E E' IH]; [exists []; split; [reflexivity|constructor]|].
      destruct (E1 r v E) as (z & Z1 & Z2). destruct IH as (y' & Y1 & Y2). exists (z :: y'). split; [|constructor; assumption]. cbn [map rseq]. rewrite Z1. cbn [rbind rseq]. rewrite Y1. reflexivity. }
    assert (PL : types n "result_t" = Some rt -> forall v, as_type types n "result_t" v = cast rt v) by (intros T v; unfold as_type; rewrite T; reflexivity).
    (* activations with tables *)
    assert (TB : types n "table_t" = Some rt /\ (types n "result_t" = Some rt \/ types n "result_t" = read_type (tuple_to_apf (k, i, f) "TRN" "WRAP" true)) ->
      forall v, rbind (as_type types n "table_t" v) (as_type types n "result_t") = cast rt v).
    { intros [T1 T2] v. unfold as_type. rewrite T1. destruct (CT v) as [z Z]. rewrite Z. cbn [rbind].
      assert (FZ : fits k i f z).
      { unfold cast, rt in Z. cbn [h_k h_b h_i h_rnd h_sat] in Z. apply gfixed_fits in Z; [|exact Hk|lia]. replace (k + i - k) with i in Z by lia. replace (k + i + f - (k + i)) with f in Z by lia. exact Z. }
      destruct T2 as [T2|T2]; rewrite T2.
      - destruct (CT z) as [w Wz]. rewrite Wz. f_equal. assert (Kb : k <= k + i + f) by lia. exact (gfixed_idem _ _ _ _ _ _ _ _ Hk Kb Z Wz).
      - rewrite (read_result k i f "TRN" "WRAP" Hk W1) by (cbn; auto 10). exact (cast_fits k i f z Hk W0 FZ). }
    destruct kd; cbn [layer_out fw_out] in H |- *;
      try (apply GE; [|exact H]; intros r v E; cbn [fw_element]; rewrite ?RN, E; cbn [rbind]; rewrite (PL CA v); destruct (CT v) as [z Z]; exists z; split; [exact Z|apply ST, Z]).
    - assert (y = feed n) by congruence. subst y. apply (LI _ (PL CA)).
    - pose proof (staged_in_table_point n a func ps En IT k i f R V HR) as TP.
      destruct a; [assert (y = opaque n ins) by congruence; subst y; apply (LI (fun y => rbind (as_type types n "table_t" y) (as_type types n "result_t")) (TB CA))|..];
      try (destruct TP as (size & p & -> & SZ & TP); destruct ins as [|x [|? ?]]; try discriminate; rewrite SZ; assert (y = map func x) by congruence; subst y; inversion FI as [|? ? ? ? VX _]; subst;
       destruct (LI (fun y => rbind (as_type types n "table_t" y) (as_type types n "result_t")) (TB CA) (map func x)) as (y' & Y1 & Y2); exists y'; split; [|exact Y2];
       rewrite <- Y1, map_map; f_equal; apply map_ext_in; intros v IV; rewrite (TP v (proj1 (Forall_forall _ _) VX v IV)); reflexivity);
      (destruct ins as [|x [|? ?]]; try discriminate; assert (y = map func x) by congruence; subst y;
       destruct (LI (fun y => rbind (as_type types n "table_t" y) (as_type types n "result_t")) (TB CA) (map func x)) as (y' & Y1 & Y2); exists y'; split; [rewrite map_map in Y1; exact Y1|exact Y2]).
    - destruct softmax; [assert (y = opaque n ins) by congruence; subst y; apply (LI _ (PL CA))|].
      destruct ins as [|x [|? ?]]; try discriminate. assert (y = map func x) by congruence. subst y.
      destruct (LI _ (PL CA) (map func x)) as (y' & Y1 & Y2). exists y'. split; [rewrite map_map in Y1; exact Y1|exact Y2].
    - apply GE; [|exact H]. intros r v E. destruct (staged_kernel_element n kernel div bias ps ins r v k i f R V En FI HR Hk W1 W0 HRn HVn AC E) as (z & Z1 & Z2). exists z. split; [exact Z1|apply ST; exact Z2].
    - destruct (NT kif_out eq_refl).
    - assert (y = opaque n ins) by congruence. subst y. apply (LI _ (PL CA)).
  Qed.

  Definition carries' (env env' : list (list Qc)) : Prop :=
    List.length env' = List.length env /\ forall n x, nth_error env n = Some x -> exists x', nth_error env' n = Some x' /\ Forall2 (stored_at n) x x'.

  Lemma staged_element q n p x x' m r y kd0 ps0 : nth_error net n = Some (NFpq q, [p]) -> nth_error net p = Some (kd0, ps0) -> nth_error out p = Some x -> In r (geo n) -> Forall2 (stored_at p) x x' ->
    (removed net s' n = false -> forall o c o' c' j a b, nth_error s q = Some o -> nth_error (data (cfgs o)) j = Some c -> nth_error s' q = Some o' -> nth_error (data (cfgs o')) j = Some c' ->
      in_format o c a -> value net (sn p) p a -> stored_at p a b -> quant o' c' b = quant o' c' a) ->
    element s (NFpq q) m [x] r = Ok y -> element s' (NFpq q) m [x] r = Ok y ->
    if removed net s' n then fw_element net s' types adder n (NFpq q) m [x'] r = Ok y else element s' (NFpq q) m [x'] r = Ok y.
  Proof.
    intros En Ep Eout IR ST TR H H'. unfold fw_element, element in *. destruct (fetches [x] (r_src r)) as [xs|] eqn:X; [|discriminate]. cbn [rbind] in H, H'.
    destruct xs as [|w [|? ?]]; try discriminate. destruct (nth_error s q) as [o|] eqn:Eo; [|discriminate]. destruct (nth_error s' q) as [o'|] eqn:Eo'; [|discriminate].
    destruct (nth_error (data (cfgs o)) (r_ch r)) as [c|] eqn:Ec; [|discriminate]. destruct (nth_error (data (cfgs o')) (r_ch r)) as [c'|] eqn:Ec'; [|discriminate].
    apply demand_ok in H as [B H]. apply demand_ok in H' as [_ H']. apply andb_true_iff in B as [B1 B2].
    destruct (one_fetch [x] x (r_src r) w eq_refl X B2) as (j & Es & Ej). pose proof (forall2_nth _ _ _ ST j) as NJ. rewrite Ej in NJ. destruct (nth_error x' j) as [w'|] eqn:Ej'; [|contradiction].
    pose proof (QU n q p r j o c x w En IR Es Eo Ec Eout Ej) as IF.
    rewrite Es. unfold fetches. cbn [map rseq fetch nth_error]. rewrite Ej'. cbn [rbind rseq]. unfold demand. rewrite B1. cbn [forallb from Nat.eqb andb].
    assert (VW : value net (sn p) p w) by (apply (proj1 (Forall_forall _ _) (AT p kd0 ps0 Ep p x Eout)); apply (nth_error_In _ _ Ej)). destruct (removed net s' n) eqn:RN.
    - pose proof (staged_removed n q p o c w w' RN En Eo (nth_error_In _ _ Ec) ltac:(eauto) NJ) as Q. unfold quant in Q. congruence.
    - pose proof (TR eq_refl o c o' c' (r_ch r) w w' eq_refl Ec eq_refl Ec' IF VW NJ) as Q. unfold quant in Q. rewrite Q. exact H'.
  Qed.

  Lemma staged_step env env' more n kd ps ins y : carries' env env' -> out = (env ++ more)%list -> List.length env = n -> nth_error net n = Some (kd, ps) -> (forall m, (m < n)%nat -> exists kd ps, nth_error net m = Some (kd, ps)) ->
    inputs_of env ps = Ok ins -> layer_out s geo feed opaque tables n kd ins = Ok y -> layer_out s' geo feed opaque tables n kd ins = Ok y ->
    exists ins' y', inputs_of env' ps = Ok ins' /\ fw_out net s' geo feed opaque types sizes tables adder n kd ins' = Ok y' /\ Forall2 (stored_at n) y y'.
  Proof.
    intros [L M] EO Ln En Below EI EL0 EL.
    assert (IN : forall p x, nth_error env p = Some x -> nth_error out p = Some x /\ exists kd ps, nth_error net p = Some (kd, ps)).
    { intros p x Ex. assert (Lp : (p < List.length env)%nat) by (apply (proj1 (nth_error_Some env p)); rewrite Ex; discriminate). split; [rewrite EO, nth_error_app1 by exact Lp; exact Ex|]. apply Below. lia. }
    (* a quantizer reading anything *)
    assert (QR : forall q p, kd = NFpq q -> ps = [p] ->
      (removed net s' n = false -> forall o c o' c' j a b, nth_error s q = Some o -> nth_error (data (cfgs o)) j = Some c -> nth_error s' q = Some o' -> nth_error (data (cfgs o')) j = Some c' ->
        in_format o c a -> value net (sn p) p a -> stored_at p a b -> quant o' c' b = quant o' c' a) ->
      exists ins' y', inputs_of env' ps = Ok ins' /\ fw_out net s' geo feed opaque types sizes tables adder n kd ins' = Ok y' /\ Forall2 (stored_at n) y y').
    { intros q p -> -> TR. unfold inputs_of in EI. cbn [map rseq] in EI. destruct (nth_error env p) as [x|] eqn:Ex; [|discriminate]. cbn [rbind] in EI. assert (ins = [x]) by congruence. subst ins.
      destruct (IN p x Ex) as (Eout & kd0 & ps0 & Ep).
      destruct (M p x Ex) as (x' & Ex' & ST). exists [x'].
      assert (EI' : inputs_of env' [p] = Ok [x']) by (unfold inputs_of; cbn; rewrite Ex'; reflexivity).
      cbn [layer_out] in EL, EL0. apply rseq_forall2 in EL. apply rseq_forall2 in EL0. cbn [List.length] in EL, EL0.
      assert (Q : Forall2 (fun r w => if removed net s' n then fw_element net s' types adder n (NFpq q) 1 [x'] r = Ok w else element s' (NFpq q) 1 [x'] r = Ok w) (geo n) y).
      { assert (Q : forall r w, In r (geo n) -> element s (NFpq q) 1 [x] r = Ok w -> element s' (NFpq q) 1 [x] r = Ok w ->
          if removed net s' n then fw_element net s' types adder n (NFpq q) 1 [x'] r = Ok w else element s' (NFpq q) 1 [x'] r = Ok w) by (intros r w IR E0 E1; exact (staged_element q n p x x' 1 r w kd0 ps0 En Ep Eout IR ST TR E0 E1)).
        clear -EL EL0 Q. induction EL0 as [|r w l ys E E0 IH]; [constructor|]. inversion EL; subst. constructor; [apply Q; [left; reflexivity|assumption|assumption]|]. apply IH; [assumption|]. intros r0 w0 I0. apply Q. right. exact I0. }
      destruct (removed net s' n) eqn:RN.
      - exists y. split; [exact EI'|]. split; [cbn [fw_out List.length]; apply forall2_rseq; exact Q|]. clear -RN. induction y; constructor; [left; auto|assumption].
      - assert (EL' : layer_out s' geo feed opaque tables n (NFpq q) [x'] = Ok y) by (cbn [layer_out List.length]; apply forall2_rseq; exact Q).
        destruct (staged_fw_layer n (NFpq q) [p] [x'] y En RN I EL') as (y' & Y1 & Y2). exists y'. auto. }
    assert (CL : (exists p, In p ps /\ read_by_quantizers' p) \/ (forall p, In p ps -> exact_at' p)).
    { apply rseq_forall2 in EI. assert (CA : forall p kd ps, nth_error net p = Some (kd, ps) -> exact_at' p \/ read_by_quantizers' p) by exact staged_carried. clear -EI CA IN. induction EI as [|p x ps ins E EI IH]; [right; intros p []|].
      destruct (nth_error env p) as [x0|] eqn:Ex; [|discriminate].
      destruct (IN p x0 Ex) as (_ & kd0 & ps0 & Ep).
      destruct IH as [(p0 & I0 & Q)|N]; [left; exists p0; split; [right; exact I0|exact Q]|].
      destruct (CA p kd0 ps0 Ep) as [X|X]; [right; intros p0 [->|I0]; auto|left; exists p; split; [left; reflexivity|exact X]]. }
    destruct CL as [(p & Ip & RQ')|EX].
    - destruct (RQ' n kd ps En Ip) as (EP & q & EK & TR). apply (QR q p EK EP TR).
    - assert (EI' : inputs_of env' ps = Ok ins).
      { apply (matches_plain env env' ps ins); [|exact EI]. intros p Ip x Ex. destruct (M p x Ex) as (x' & Ex' & ST). rewrite Ex'. f_equal. destruct (IN p x Ex) as (Eout & kd0 & ps0 & Ep). pose proof (AT p kd0 ps0 Ep p x Eout) as VX. specialize (EX p Ip).
        clear -VX ST EX. induction ST as [|a b x x' S ST IH]; [reflexivity|]. inversion VX; subst. f_equal; [apply (EX a b); assumption|apply IH; assumption]. }
      destruct (removed net s' n) eqn:RN.
      + destruct (removed_spec net s' n RN) as (q & p & o & En' & _). assert (kd = NFpq q /\ ps = [p]) as [EK EP] by (split; congruence). apply (QR q p EK EP). congruence.
      + assert (AE : attainable (sn n) net env) by (intros p x Ex; apply (AT n kd ps En p x), IN, Ex).
        destruct (staged_fw_layer n kd ps ins y En RN) as (y' & Y1 & Y2); [destruct kd; try exact I; apply (inputs_value _ _ _ _ _ AE EI)|exact EL|]. exists ins, y'. auto.
  Qed.

  Lemma staged_run_gen : forall rest pre env env', net = (pre ++ rest)%list -> List.length env = List.length pre -> carries' env env' ->
    run s geo feed opaque tables rest env = Ok out -> run s' geo feed opaque tables rest env = Ok out ->
    exists out', fw_run net s' geo feed opaque types sizes tables adder rest env' = Ok out' /\ carries' out out'.
  Proof.
    induction rest as [|[kd ps] rest IH]; intros pre env env' EN L M H H'.
    - cbn in H. assert (out = env) by congruence. subst out. exists env'. split; [reflexivity|]. assumption.
    - destruct (run_extends _ _ _ _ _ _ _ _ H) as [more EO]. cbn in H, H'. destruct (inputs_of env ps) as [ins|] eqn:EI; [|discriminate]. cbn [rbind] in H, H'.
      destruct (layer_out s geo feed opaque tables (List.length env) kd ins) as [y|] eqn:EL0; [|discriminate]. cbn [rbind] in H.
      destruct (layer_out s' geo feed opaque tables (List.length env) kd ins) as [y1|] eqn:EL; [|discriminate]. cbn [rbind] in H'.
      assert (y1 = y).
      { destruct (run_extends _ _ _ _ _ _ _ _ H) as [m1 E1]. destruct (run_extends _ _ _ _ _ _ _ _ H') as [m2 E2]. rewrite E1, <- !app_assoc in E2. apply app_inv_head in E2. cbn in E2. congruence. }
      subst y1.
      assert (En : nth_error net (List.length env) = Some (kd, ps)) by (rewrite EN, L, nth_error_app2, Nat.sub_diag by lia; reflexivity).
      destruct (staged_step env env' more (List.length env) kd ps ins y M EO eq_refl En) as (ins' & y' & I' & O' & Y'); [|exact EI|exact EL0|exact EL|].
      { intros m Lm. destruct (nth_error net m) as [[kd0 ps0]|] eqn:E; [eauto|]. apply nth_error_None in E. rewrite EN, app_length in E. lia. }
      destruct (IH (pre ++ [(kd, ps)])%list (env ++ [y])%list (env' ++ [y'])%list) as (out' & R & MO); [rewrite <- app_assoc; exact EN|rewrite !app_length; cbn; lia| |exact H|exact H'|].
      + destruct M as [L' M]. split; [rewrite !app_length; cbn; lia|]. intros n x E. rewrite nth_snoc in E. rewrite nth_snoc, L'. destruct (Nat.eqb_spec n (List.length env)) as [->|N].
        * assert (x = y) by congruence. subst x. exists y'. auto.
        * apply (M n x E).
      + exists out'. split; [|exact MO]. cbn [fw_run]. rewrite I'. cbn [rbind]. destruct M as [L' _]. rewrite L', O'. cbn [rbind]. exact R.
  Qed.

  Lemma staged_same : run s geo feed opaque tables net [] = Ok out -> run s' geo feed opaque tables net [] = Ok out ->
    exists out', fw_run net s' geo feed opaque types sizes tables adder net [] = Ok out' /\ List.length out' = List.length out /\
      forall n, removed net s' n = true \/ (exists t ps, nth_error net n = Some (NLut t, ps)) \/ ((forall ps, nth_error net n <> Some (NInput, ps)) /\ demanding_readers (S fuel) net (sn n) n) -> nth_error out' n = nth_error out n.
  Proof.
    intros H H'. destruct (staged_run_gen net [] [] [] eq_refl eq_refl) as (out' & R & (L & M)); [split; [reflexivity|intros [|n] x E; discriminate]|exact H|exact H'|].
    assert (LN : forall st rest env o, run st geo feed opaque tables rest env = Ok o -> List.length o = (List.length env + List.length rest)%nat).
    { intros st. induction rest as [|[kd ps] rest IH]; intros env o E; cbn in E; [assert (o = env) by congruence; subst; cbn; lia|]. destruct (inputs_of env ps); [|discriminate]. cbn [rbind] in E.
      destruct (layer_out st geo feed opaque tables (List.length env) kd a); [|discriminate]. cbn [rbind] in E. rewrite (IH _ _ E), app_length. cbn. lia. }
    exists out'. split; [exact R|]. split; [exact L|]. intros n HN. destruct (nth_error out n) as [x|] eqn:Ex.
    - destruct (M n x Ex) as (x' & Ex' & ST). rewrite Ex'. f_equal.
      assert (Lx : (n < List.length net)%nat). { rewrite (LN _ _ _ _ H) in *. assert (n < List.length out)%nat by (apply (proj1 (nth_error_Some out n)); rewrite Ex; discriminate). rewrite (LN _ _ _ _ H) in *. cbn in *. assumption. }
      destruct (nth_error net n) as [[kd ps]|] eqn:En; [|apply nth_error_None in En; lia]. pose proof (AT n kd ps En n x Ex) as VX. pose proof (AF n kd ps En) as AFn. clear Ex Ex'.
      assert (EX : exact_at' n).
      { intros a b VA SA. destruct SA as [[_ ->]|[[_ ->]|(NL & RN & k & i & f & R0 & V & HR & EB)]]; [reflexivity|reflexivity|]. destruct HN as [?|[(t & ps' & X)|(NI & FN & k0 & i0 & f0 & k1 & i1 & f1 & HP & HQ & B1 & B2 & B3)]]; [congruence|destruct (NL t ps'); congruence|].
        assert (NI' : forall ps, nth_error net n <> Some (NInput, ps)) by (intros ps'; rewrite En; apply NI).
        destruct (result_merged _ _ _ _ _ _ _ _ _ _ _ _ HR FN NI' HP HQ) as (EM & -> & ->). destruct (produced_sound (S fuel) net (sn n) AFn n (k0, i0, f0) HP) as [Hk0 Fits0]. cbn [fst snd] in Hk0, Fits0.
        rewrite (merge_exact k0 i0 f0 k1 i1 f1 k i f a Hk0 B1 (Fits0 a VA) B2 B3 EM) in EB. congruence. }
      clear -VX ST EX. induction ST as [|a b x x' S ST IH]; [reflexivity|]. inversion VX; subst. f_equal; [apply (EX a b); assumption|apply IH; assumption].
    - apply nth_error_None. apply nth_error_None in Ex. lia.
  Qed.
End Staged.
